(** * The parser and the grammar: proofs for PropJsonText.v *)
From Coq Require Import String.
From Coq Require Import List Arith NArith Bool Lia.
From Verif Require Import Str StrP Json SpecJson JsonP JsonText SpecJsonText.
Import ListNotations.
Local Open Scope N_scope.

Ltac tests := repeat match goal with
  | H : context [N.eqb ?a ?b] |- _ => destruct (N.eqb_spec a b); cbn [andb orb] in H
  | H : context [N.leb ?a ?b] |- _ => destruct (N.leb_spec a b); cbn [andb orb] in H
  | H : context [N.ltb ?a ?b] |- _ => destruct (N.ltb_spec a b); cbn [andb orb] in H
  | |- context [N.eqb ?a ?b] => destruct (N.eqb_spec a b); cbn [andb orb]
  | |- context [N.leb ?a ?b] => destruct (N.leb_spec a b); cbn [andb orb]
  | |- context [N.ltb ?a ?b] => destruct (N.ltb_spec a b); cbn [andb orb]
  end.

(** ** Pieces *)
Lemma ws_iff : forall c, is_ws c = true <-> In c [32; 9; 10; 13].
Proof. intros c. unfold is_ws. split; [intros H; tests; subst; try discriminate; cbn; auto|]. intros [<-|[<-|[<-|[<-|[]]]]]; reflexivity. Qed.
Lemma digit_iff : forall c, is_digit c = true <-> digit c.
Proof. intros c. unfold is_digit, digit. rewrite andb_true_iff, !N.leb_le. lia. Qed.
Lemma skip_sound : forall s, exists b, s = b ++ skip_ws s /\ blank b.
Proof.
  induction s as [|c s (b & E & Hb)]; [exists []; split; [reflexivity|constructor]|]. cbn [skip_ws]. destruct (is_ws c) eqn:Ec.
  - exists (c :: b). split; [cbn [app]; f_equal; exact E|]. constructor; [apply ws_iff, Ec|exact Hb].
  - exists []. split; [reflexivity|constructor].
Qed.
Lemma skip_blank : forall b s, blank b -> skip_ws (b ++ s) = skip_ws s.
Proof. induction b as [|c b IH]; intros s Hb; [reflexivity|]. inversion Hb as [|? ? Hc Hb']; subst. cbn [app skip_ws]. rewrite (proj2 (ws_iff c) Hc). apply IH, Hb'. Qed.
Lemma skip_stop : forall c s, is_ws c = false -> skip_ws (c :: s) = c :: s.
Proof. intros c s H. cbn [skip_ws]. rewrite H. reflexivity. Qed.
Lemma skip_all : forall s, skip_ws s = [] <-> blank s.
Proof.
  intros s. split.
  - intros E. destruct (skip_sound s) as (b & E' & Hb). rewrite E, app_nil_r in E'. subst b. exact Hb.
  - intros Hb. rewrite <- (app_nil_r s). rewrite skip_blank by exact Hb. reflexivity.
Qed.
Lemma eat_iff : forall c s r, eat c s = Some r <-> s = c :: r.
Proof.
  intros c [|x s] r; cbn [eat]; [split; discriminate|]. destruct (N.eqb_spec x c) as [->|Hne]; split; intros H; try discriminate; injection H; intros; subst; try reflexivity. contradiction.
Qed.
Lemma eat_head : forall c s, eat c (c :: s) = Some s.
Proof. intros c s. apply eat_iff. reflexivity. Qed.
Lemma eat_other : forall c x s, x <> c -> eat c (x :: s) = None.
Proof. intros c x s H. cbn [eat]. destruct (N.eqb_spec x c); [contradiction|reflexivity]. Qed.
Lemma ident_iff : forall w s z, ident w s = Some z <-> s = w ++ z.
Proof.
  induction w as [|x w IH]; intros s z; cbn [ident app]; [split; congruence|]. destruct s as [|y s]; [split; discriminate|].
  destruct (N.eqb_spec x y) as [->|Hne]; [rewrite IH; split; congruence|]. split; congruence.
Qed.
Definition no_digit (s : str) : Prop := match s with c :: _ => is_digit c = false | [] => True end.
Lemma digits_sound : forall s a b, digits s = (a, b) -> s = a ++ b /\ Forall digit a /\ no_digit b.
Proof.
  induction s as [|c s IH]; intros a b E; cbn [digits] in E; [injection E as <- <-; repeat split; constructor|].
  destruct (is_digit c) eqn:Ec.
  - destruct (digits s) as [a' b'] eqn:Ed. injection E as <- <-. destruct (IH a' b' eq_refl) as (-> & H1 & H2). repeat split; [|exact H2].
    constructor; [apply digit_iff, Ec|exact H1].
  - injection E as <- <-. repeat split; [constructor|exact Ec].
Qed.
Lemma digits_done : forall a b, Forall digit a -> no_digit b -> digits (a ++ b) = (a, b).
Proof.
  induction a as [|c a IH]; intros b Ha Hb; cbn [app digits].
  - destruct b as [|c b]; [reflexivity|]. cbn [digits]. cbn in Hb. rewrite Hb. reflexivity.
  - inversion Ha as [|? ? Hc Ha']; subst. rewrite (proj2 (digit_iff c) Hc), (IH b Ha' Hb). reflexivity.
Qed.

(** ** Strings *)
Lemma hex_iff : forall c n, hex_val c = Some n <-> hex c n.
Proof.
  intros c n. unfold hex_val, hex, digit. destruct (is_digit c) eqn:Ed.
  - apply digit_iff in Ed. unfold digit in Ed. split; [intros [= <-]; left; lia|]. intros H. f_equal. lia.
  - assert (Hd : ~ (48 <= c <= 57)) by (intros H; apply digit_iff in H; congruence).
    split.
    + intros H. tests; try discriminate; injection H as <-; lia.
    + intros H. tests; try (f_equal; lia); exfalso; lia.
Qed.
Lemma hex4_iff : forall a b c d n, hex4 a b c d = Some n <-> unit_of [92; 117; a; b; c; d] n.
Proof.
  intros a b c d n. unfold hex4, unit_of. split.
  - destruct (hex_val a) as [w|] eqn:Ea; [|discriminate]. destruct (hex_val b) as [x|] eqn:Eb; [|discriminate].
    destruct (hex_val c) as [y|] eqn:Ec; [|discriminate]. destruct (hex_val d) as [z|] eqn:Ed; [|discriminate]. intros [= <-].
    apply hex_iff in Ea, Eb, Ec, Ed. exists a, b, c, d, w, x, y, z. repeat (split; [auto; fail|]). lia.
  - intros (a' & b' & c' & d' & w & x & y & z & [= <- <- <- <-] & Ha & Hb & Hc & Hd & ->). apply hex_iff in Ha, Hb, Hc, Hd. rewrite Ha, Hb, Hc, Hd. f_equal. lia.
Qed.
Lemma escape_iff : forall e c, simple_escape e = Some c <-> In (e, c) [(34, 34); (92, 92); (47, 47); (98, 8); (102, 12); (110, 10); (114, 13); (116, 9)].
Proof.
  intros e c. unfold simple_escape. split.
  - intros H. tests; subst; try discriminate; injection H as <-; cbn; auto 10.
  - intros H. repeat (destruct H as [H|H]; [injection H as <- <-; reflexivity|]). destruct H.
Qed.
Lemma push_some : forall c o t z, push c o = Some (t, z) -> exists u, o = Some (u, z) /\ t = c :: u.
Proof. intros c [[u z']|] t z H; [|discriminate]. injection H as <- <-. exists u. auto. Qed.
Lemma body_sound : forall n s u z, (length s <= n)%nat -> string_body s = Some (u, z) -> exists t, s = t ++ 34 :: z /\ contents t u.
Proof.
  induction n as [|n IH]; intros s u z Hn H; [destruct s; [discriminate|cbn in Hn; lia]|]. destruct s as [|c r]; [discriminate|]. cbn [string_body] in H. cbn [length] in Hn.
  destruct (N.eqb_spec c 34) as [->|H34]; [injection H as <- <-; exists []; split; [reflexivity|constructor]|].
  destruct (N.eqb_spec c 92) as [->|H92].
  - destruct r as [|e r0]; [discriminate|]. destruct (N.eqb_spec e 117) as [->|He].
    + destruct r0 as [|a1 [|a2 [|a3 [|a4 r1]]]]; try discriminate. destruct (hex4 a1 a2 a3 a4) as [m|] eqn:E4; [|discriminate]. apply hex4_iff in E4.
      destruct ((56320 <=? m) && (m <=? 57343)) eqn:El; [discriminate|]. destruct ((55296 <=? m) && (m <=? 56319)) eqn:Eh.
      * destruct r1 as [|x [|y [|b1 [|b2 [|b3 [|b4 r2]]]]]]; try discriminate. destruct ((x =? 92) && (y =? 117)) eqn:Exy; [|discriminate].
        apply andb_true_iff in Exy. destruct Exy as [Ex Ey]. apply N.eqb_eq in Ex, Ey. subst x y.
        destruct (hex4 b1 b2 b3 b4) as [m'|] eqn:E4'; [|discriminate]. apply hex4_iff in E4'. destruct ((56320 <=? m') && (m' <=? 57343)) eqn:El'; [|discriminate].
        apply push_some in H. destruct H as (u' & H & ->). destruct (IH r2 u' z) as (t & -> & Ht); [cbn [length] in Hn; lia|exact H|].
        exists (([92; 117; a1; a2; a3; a4] ++ [92; 117; b1; b2; b3; b4]) ++ t). split; [reflexivity|]. constructor; [|exact Ht].
        apply andb_true_iff in Eh, El'. rewrite !N.leb_le in Eh, El'. apply WPair; [exact E4|exact E4'| |]; unfold high, low; lia.
      * apply push_some in H. destruct H as (u' & H & ->). destruct (IH r1 u' z) as (t & -> & Ht); [cbn [length] in Hn; lia|exact H|].
        exists ([92; 117; a1; a2; a3; a4] ++ t). split; [reflexivity|]. constructor; [|exact Ht].
        apply andb_false_iff in Eh, El. rewrite !N.leb_gt in Eh, El. apply WUnit; [exact E4| |]; unfold high, low; lia.
    + destruct (simple_escape e) as [x|] eqn:Ee; [|discriminate]. apply escape_iff in Ee. apply push_some in H. destruct H as (u' & H & ->).
      destruct (IH r0 u' z) as (t & -> & Ht); [cbn [length] in Hn; lia|exact H|]. exists ([92; e] ++ t). split; [reflexivity|]. constructor; [apply WEscape, Ee|exact Ht].
  - destruct (N.ltb_spec c 32); [discriminate|]. apply push_some in H. destruct H as (u' & H & ->). destruct (IH r u' z) as (t & -> & Ht); [lia|exact H|].
    exists ([c] ++ t). split; [reflexivity|]. constructor; [apply WPlain; assumption|exact Ht].
Qed.
Lemma body_done : forall t u, contents t u -> forall (z : str), string_body (t ++ 34 :: z) = Some (u, z).
Proof.
  intros t u H. induction H as [|s c t u Hw _ IH]; intros z; [reflexivity|]. rewrite <- app_assoc. destruct Hw as [c H1 H2 H3|e c He|s n Hu Hh Hl|s s' n m Hu Hu' Hh Hl].
  - cbn [app string_body]. destruct (N.eqb_spec c 34); [contradiction|]. destruct (N.eqb_spec c 92); [contradiction|]. destruct (N.ltb_spec c 32); [lia|]. rewrite IH. reflexivity.
  - cbn [app string_body]. change (92 =? 34) with false. change (92 =? 92) with true. cbn match. destruct (N.eqb_spec e 117) as [->|].
    + repeat (destruct He as [He|He]; [discriminate|]). destruct He.
    + rewrite (proj2 (escape_iff e c) He), IH. reflexivity.
  - pose proof Hu as (a & b & c & d & w & x & y & v & -> & _). apply hex4_iff in Hu. cbn [app string_body]. change (92 =? 34) with false. change (92 =? 92) with true. change (117 =? 117) with true. cbn match.
    rewrite Hu. unfold high, low in *. replace ((56320 <=? n) && (n <=? 57343)) with false by (symmetry; apply andb_false_iff; rewrite !N.leb_gt; lia).
    replace ((55296 <=? n) && (n <=? 56319)) with false by (symmetry; apply andb_false_iff; rewrite !N.leb_gt; lia). rewrite IH. reflexivity.
  - pose proof Hu as (a & b & c & d & w & x & y & v & -> & _). pose proof Hu' as (a' & b' & c' & d' & w' & x' & y' & v' & -> & _). apply hex4_iff in Hu, Hu'.
    cbn [app string_body]. change (92 =? 34) with false. change (92 =? 92) with true. change (117 =? 117) with true. cbn match.
    rewrite Hu. unfold high, low in *. replace ((56320 <=? n) && (n <=? 57343)) with false by (symmetry; apply andb_false_iff; rewrite !N.leb_gt; lia).
    replace ((55296 <=? n) && (n <=? 56319)) with true by (symmetry; apply andb_true_iff; rewrite !N.leb_le; lia). cbn [andb]. rewrite Hu'.
    replace ((56320 <=? m) && (m <=? 57343)) with true by (symmetry; apply andb_true_iff; rewrite !N.leb_le; lia). rewrite IH. reflexivity.
Qed.

(** ** Numbers *)
Lemma decimal_of : forall ds acc, fold_left (fun n c => n * 10 + (c - 48)) ds acc = number_of ds acc.
Proof. induction ds as [|c ds IH]; intros acc; [reflexivity|]. cbn [fold_left number_of]. rewrite IH. f_equal. lia. Qed.
Lemma value_iff : forall float neg ds fx l, number_value float neg ds fx = Some l <-> prints float neg ds fx l.
Proof.
  intros float neg ds fx l. unfold number_value, prints, decimal. rewrite decimal_of. set (n := number_of ds 0). cbn zeta.
  assert (E63 : 2 ^ 63 = 9223372036854775808) by reflexivity. assert (E64 : 2 ^ 64 = 18446744073709551616) by reflexivity. rewrite E63, E64.
  destruct fx as [|x fx].
  - destruct neg.
    + destruct ((0 <? n) && (n <=? 9223372036854775808)) eqn:E.
      * apply andb_true_iff in E. rewrite N.ltb_lt, N.leb_le in E. split; [intros [= <-]; left; split; [split; [reflexivity|exact E]|reflexivity]|].
        intros [[_ ->]|[H _]]; [reflexivity|]. contradiction H. split; [reflexivity|exact E].
      * apply andb_false_iff in E. rewrite N.ltb_ge, N.leb_gt in E. split; [intros H; right; split; [intros [_ H']; lia|exact H]|].
        intros [[[_ H'] _]|[_ H]]; [lia|exact H].
    + destruct (N.leb_spec n 18446744073709551615) as [E|E].
      * split; [intros [= <-]; left; split; [split; [reflexivity|lia]|reflexivity]|]. intros [[_ ->]|[H _]]; [reflexivity|]. contradiction H. split; [reflexivity|lia].
      * split; [intros H; right; split; [intros [_ H']; lia|exact H]|]. intros [[[_ H'] _]|[_ H]]; [lia|exact H].
  - split; [intros H; right; split; [intros [H' _]; discriminate|exact H]|]. intros [[[H' _] _]|[_ H]]; [discriminate|exact H].
Qed.
(** What may follow a number. *)
Definition stop (z : str) : Prop := match z with c :: _ => is_digit c = false /\ c <> 46 /\ c <> 101 /\ c <> 69 | [] => True end.
Definition frac_ok (fr : str) : Prop := fr = [] \/ exists t, fr = 46 :: t /\ all_digits t.
Definition exp_ok (ex : str) : Prop := ex = [] \/ exists e sg t, ex = e :: sg ++ t /\ In e [101; 69] /\ In sg [[]; [43]; [45]] /\ all_digits t.
Lemma fraction_sound : forall s fr z, fraction s = Some (fr, z) -> s = fr ++ z /\ frac_ok fr.
Proof.
  intros s fr z. unfold fraction. destruct (eat 46 s) as [r|] eqn:Ee.
  - apply eat_iff in Ee. subst s. destruct (digits r) as [ds z'] eqn:Ed. apply digits_sound in Ed. destruct Ed as (-> & Hd & _). destruct ds as [|c ds]; [discriminate|].
    intros [= <- <-]. split; [reflexivity|]. right. exists (c :: ds). split; [reflexivity|split; [discriminate|exact Hd]].
  - intros [= <- <-]. split; [reflexivity|left; reflexivity].
Qed.
Lemma fraction_done : forall fr z, frac_ok fr -> no_digit z -> eat 46 z = None -> fraction (fr ++ z) = Some (fr, z).
Proof.
  intros fr z [->|(t & -> & Hne & Ht)] Hz Hdot; unfold fraction.
  - cbn [app]. rewrite Hdot. reflexivity.
  - cbn [app]. rewrite eat_head, (digits_done t z Ht Hz). destruct t; [contradiction|reflexivity].
Qed.
Lemma exponent_sound : forall s ex z, exponent s = Some (ex, z) -> s = ex ++ z /\ exp_ok ex.
Proof.
  intros s ex z. unfold exponent. destruct s as [|c r]; [intros [= <- <-]; split; [reflexivity|left; reflexivity]|].
  destruct ((c =? 101) || (c =? 69)) eqn:Ec; [|intros [= <- <-]; split; [reflexivity|left; reflexivity]].
  assert (Hc : In c [101; 69]) by (apply orb_true_iff in Ec; rewrite !N.eqb_eq in Ec; cbn; intuition).
  assert (Hsg : exists sg r', match r with x :: r' => if (x =? 43) || (x =? 45) then ([x], r') else ([], r) | [] => ([], r) end = (sg, r') /\ r = sg ++ r' /\ In sg [[]; [43]; [45]]).
  { destruct r as [|x r']; [exists [], []; cbn; auto|]. destruct ((x =? 43) || (x =? 45)) eqn:Ex; [exists [x], r'|exists [], (x :: r'); cbn; auto].
    split; [reflexivity|]. split; [reflexivity|]. apply orb_true_iff in Ex. rewrite !N.eqb_eq in Ex. destruct Ex as [->| ->]; cbn; auto. }
  destruct Hsg as (sg & r' & -> & -> & Hsg). destruct (digits r') as [ds z'] eqn:Ed. apply digits_sound in Ed. destruct Ed as (-> & Hd & _). destruct ds as [|d ds]; [discriminate|].
  intros [= <- <-]. split; [cbn [app]; rewrite <- app_assoc; reflexivity|]. right. exists c, sg, (d :: ds). repeat split; try assumption. discriminate.
Qed.
Lemma exponent_done : forall ex z, exp_ok ex -> stop z -> exponent (ex ++ z) = Some (ex, z).
Proof.
  intros ex z [->|(e & sg & t & -> & He & Hsg & Hne & Ht)] Hz.
  - cbn [app]. unfold exponent. destruct z as [|c z]; [reflexivity|]. destruct Hz as (_ & _ & H1 & H2). destruct (N.eqb_spec c 101); [contradiction|]. destruct (N.eqb_spec c 69); [contradiction|]. reflexivity.
  - assert (Hnd : no_digit z) by (destruct z; [exact I|exact (proj1 Hz)]).
    cbn [app]. unfold exponent. replace ((e =? 101) || (e =? 69)) with true by (destruct He as [<-|[<-|[]]]; reflexivity). rewrite <- app_assoc.
    replace (match sg ++ t ++ z with x :: r' => if (x =? 43) || (x =? 45) then ([x], r') else ([], sg ++ t ++ z) | [] => ([], sg ++ t ++ z) end) with (sg, t ++ z).
    + rewrite (digits_done t z Ht Hnd). destruct t; [contradiction|reflexivity].
    + destruct Hsg as [<-|[<-|[<-|[]]]]; try reflexivity. destruct t as [|c t]; [contradiction|]. inversion Ht as [|? ? Hc _]; subst. unfold digit in Hc. cbn [app].
      destruct (N.eqb_spec c 43); [lia|]. destruct (N.eqb_spec c 45); [lia|]. reflexivity.
Qed.
Lemma integer_sound : forall s ds z, integer s = Some (ds, z) -> s = ds ++ z /\ all_digits ds /\ (ds = [48] \/ ~ exists r, ds = 48 :: r).
Proof.
  intros s ds z. unfold integer. destruct (eat 48 s) as [r|] eqn:Ee.
  - apply eat_iff in Ee. subst s. destruct (digits r) as [a b]. destruct a; [|discriminate]. intros [= <- <-]. split; [reflexivity|].
    split; [split; [discriminate|constructor; [unfold digit; lia|constructor]]|left; reflexivity].
  - destruct (digits s) as [a b] eqn:Ed. apply digits_sound in Ed. destruct Ed as (-> & Hd & _). destruct a as [|c a]; [discriminate|]. intros [= <- <-].
    split; [reflexivity|]. split; [split; [discriminate|exact Hd]|]. right. intros (r & [= -> ->]). cbn [app] in Ee. rewrite eat_head in Ee. discriminate.
Qed.
Lemma integer_done : forall ds z, all_digits ds -> (ds = [48] \/ ~ exists r, ds = 48 :: r) -> no_digit z -> integer (ds ++ z) = Some (ds, z).
Proof.
  intros ds z [Hne Hd] H0 Hz. unfold integer. destruct H0 as [->|H0].
  - cbn [app]. rewrite eat_head. replace (digits z) with ([] : str, z); [reflexivity|]. symmetry. apply (digits_done [] z); [constructor|exact Hz].
  - destruct ds as [|c ds]; [contradiction|]. replace (eat 48 ((c :: ds) ++ z)) with (@None str).
    + rewrite (digits_done _ z Hd Hz). reflexivity.
    + symmetry. apply eat_other. intros ->. apply H0. eexists. reflexivity.
Qed.
Lemma number_sound : forall float neg s v z, number float neg s = Some (v, z) ->
  exists ds fx l, s = ds ++ fx ++ z /\ numeral ds fx /\ prints float neg ds fx l /\ v = JNum l.
Proof.
  intros float neg s v z. unfold number. destruct (integer s) as [[ds r]|] eqn:E1; [|discriminate]. destruct (fraction r) as [[fr r']|] eqn:E2; [|discriminate].
  destruct (exponent r') as [[ex r'']|] eqn:E3; [|discriminate]. destruct (number_value _ _ _ _) as [l|] eqn:E4; [|discriminate]. intros [= <- <-].
  apply integer_sound in E1. destruct E1 as (-> & H1 & H2). apply fraction_sound in E2. destruct E2 as (-> & H3). apply exponent_sound in E3. destruct E3 as (-> & H4). apply value_iff in E4.
  exists ds, (fr ++ ex), l. split; [rewrite <- app_assoc; reflexivity|]. split; [|split; [exact E4|reflexivity]]. split; [exact H1|]. split; [exact H2|]. exists fr, ex. auto.
Qed.
Lemma number_done : forall float neg ds fx l z, numeral ds fx -> prints float neg ds fx l -> stop z -> number float neg (ds ++ fx ++ z) = Some (JNum l, z).
Proof.
  intros float neg ds fx l z (H1 & H2 & fr & ex & -> & H3 & H4) Hp Hz. unfold number.
  assert (Hs : no_digit (ex ++ z) /\ eat 46 (ex ++ z) = None).
  { destruct H4 as [->|(e & sg & t & -> & He & _)].
    - destruct z as [|c z]; [split; [exact I|reflexivity]|]. destruct Hz as (Ha & Hb & _). split; [exact Ha|apply eat_other, Hb].
    - cbn [app]. destruct He as [<-|[<-|[]]]; split; reflexivity. }
  destruct Hs as [Hs1 Hs2]. rewrite <- app_assoc. rewrite integer_done; [|exact H1|exact H2|].
  2: { destruct H3 as [->|(t & -> & _)]; [exact Hs1|reflexivity]. }
  rewrite fraction_done by assumption. rewrite exponent_done by assumption. rewrite (proj2 (value_iff _ _ _ _ _) Hp). reflexivity.
Qed.

(** ** Members *)
Definition ins (m : list (str * json)) (kv : str * json) : list (str * json) := imap_insert m (fst kv) (snd kv).
Lemma mem_in : forall k l, mem k l = true <-> In k l.
Proof.
  intros k l. unfold mem. rewrite existsb_exists. split; [intros (x & H1 & H2); apply str_eqb_eq in H2; subst; exact H1|]. intros H. exists k. split; [exact H|apply str_eqb_eq; reflexivity].
Qed.
Lemma insert_keys : forall (m : list (str * json)) k v, map fst (imap_insert m k v) = if mem k (map fst m) then map fst m else map fst m ++ [k].
Proof.
  induction m as [|[k' v'] m IH]; intros k v; [reflexivity|]. cbn [imap_insert map fst].
  assert (Em : mem k (k' :: map fst m) = str_eqb k k' || mem k (map fst m)) by reflexivity. rewrite Em.
  rewrite (str_eqb_sym k k'). destruct (str_eqb k' k); cbn [map fst orb]; [reflexivity|]. rewrite IH. destruct (mem k (map fst m)); reflexivity.
Qed.
Lemma insert_get : forall (m : list (str * json)) k v x, imap_get (imap_insert m k v) x = if str_eqb k x then Some v else imap_get m x.
Proof.
  induction m as [|[k' v'] m IH]; intros k v x; [reflexivity|]. cbn [imap_insert]. destruct (str_eqb k' k) eqn:E.
  - apply str_eqb_eq in E. subst k'. cbn [imap_get]. destruct (str_eqb k x); reflexivity.
  - cbn [imap_get]. rewrite IH. destruct (str_eqb k' x) eqn:E1; [|reflexivity]. destruct (str_eqb k x) eqn:E2; [|reflexivity].
    apply str_eqb_eq in E1, E2. subst. rewrite (proj2 (str_eqb_eq x x) eq_refl) in E. discriminate.
Qed.
Lemma firsts_ext : forall ks a b, (forall k, mem k a = mem k b) -> firsts a ks = firsts b ks.
Proof.
  induction ks as [|k ks IH]; intros a b H; [reflexivity|]. cbn [firsts]. rewrite H. destruct (mem k b); [apply IH, H|]. f_equal. apply IH.
  intros x. change (str_eqb x k || mem x a = str_eqb x k || mem x b). rewrite H. reflexivity.
Qed.
Lemma fold_keys : forall ms m, map fst (fold_left ins ms m) = map fst m ++ firsts (map fst m) (map fst ms).
Proof.
  induction ms as [|[k v] ms IH]; intros m; cbn [fold_left map firsts fst]; [symmetry; apply app_nil_r|]. rewrite IH. unfold ins at 1 2. cbn [fst snd]. rewrite insert_keys.
  destruct (mem k (map fst m)) eqn:E; [reflexivity|]. rewrite <- app_assoc. f_equal. cbn [app]. f_equal. apply firsts_ext. intros x.
  unfold mem. rewrite existsb_app. cbn [existsb]. rewrite orb_false_r. apply orb_comm.
Qed.
Lemma fold_get : forall ms m k, imap_get (fold_left ins ms m) k = match last_of ms k with Some v => Some v | None => imap_get m k end.
Proof.
  induction ms as [|[k' v'] ms IH]; intros m k; [reflexivity|]. cbn [fold_left last_of]. rewrite IH. unfold ins. cbn [fst snd]. rewrite insert_get.
  destruct (last_of ms k); [reflexivity|]. destruct (str_eqb k' k); reflexivity.
Qed.
Lemma firsts_nodup : forall ks seen, NoDup (firsts seen ks) /\ forall k, In k (firsts seen ks) -> ~ In k seen.
Proof.
  induction ks as [|k ks IH]; intros seen; [split; [constructor|intros ? []]|]. cbn [firsts]. destruct (mem k seen) eqn:E; [apply IH|].
  destruct (IH (k :: seen)) as [H1 H2]. split.
  - constructor; [|exact H1]. intros H. apply (H2 k H). left. reflexivity.
  - intros x [<-|Hx]; [intros H; apply mem_in in H; congruence|]. intros H. apply (H2 x Hx). right. exact H.
Qed.
Lemma nodup_get : forall (l : list (str * json)) k v, NoDup (map fst l) -> In (k, v) l -> imap_get l k = Some v.
Proof.
  induction l as [|[k' v'] l IH]; intros k v Hn Hin; [destruct Hin|]. cbn [map fst] in Hn. inversion Hn as [|? ? Hk Hn']; subst. cbn [imap_get].
  destruct Hin as [E|Hin]; [injection E as <- <-; rewrite (proj2 (str_eqb_eq k' k') eq_refl); reflexivity|].
  destruct (str_eqb k' k) eqn:E; [|apply IH; assumption]. apply str_eqb_eq in E. subst k'. contradiction Hk. apply (in_map fst) in Hin. exact Hin.
Qed.
Lemma fold_object : forall ms l, object_of ms l <-> l = fold_left ins ms [].
Proof.
  intros ms l.
  assert (Hf : object_of ms (fold_left ins ms [])).
  { pose proof (fold_keys ms []) as Hk. cbn [map app] in Hk. split; [exact Hk|]. intros k v Hin.
    apply nodup_get in Hin; [|rewrite Hk; apply firsts_nodup]. rewrite fold_get in Hin. cbn [imap_get] in Hin. destruct (last_of ms k); congruence. }
  split; [|intros ->; exact Hf]. intros [H1 H2]. destruct Hf as [H3 H4]. rewrite <- H3 in H1. clear H3. revert H1 H2 H4. generalize (fold_left ins ms []). intros m. revert m.
  induction l as [|[k v] l IH]; intros [|[k' v'] m] E H2 H4; try discriminate; [reflexivity|]. cbn [map fst] in E. injection E as -> E. f_equal.
  - f_equal. specialize (H2 k' v (or_introl eq_refl)). specialize (H4 k' v' (or_introl eq_refl)). congruence.
  - apply IH; [exact E| |]; intros x y Hin; [apply H2|apply H4]; right; exact Hin.
Qed.

(** ** Values *)
Section Values.
Variable float : str -> option str.
Notation spells := (spells float). Notation list_of := (list_of float). Notation members_of := (members_of float). Notation member_of := (member_of float).
Definition reads (d : nat) (val : str -> option (json * str)) : Prop :=
  forall s v z, val s = Some (v, z) -> exists a t, s = a ++ t ++ z /\ blank a /\ spells d t v.
Lemma elements_sound : forall d val, reads d val -> forall f s l z, elements val f s = Some (l, z) -> exists t, s = t ++ 93 :: z /\ list_of d t l.
Proof.
  intros d val IHv.
  induction f as [|f IHe]; intros s l z H; [discriminate|]. cbn [elements] in H. destruct (val s) as [[v r]|] eqn:E; [|discriminate]. apply IHv in E. destruct E as (a & t & -> & Ha & Ht).
    destruct (skip_sound r) as (b & Er & Hb). destruct (eat 44 (skip_ws r)) as [r'|] eqn:E1.
  - apply eat_iff in E1. rewrite E1 in Er. destruct (elements val f r') as [[l' z']|] eqn:E2; [|discriminate]. injection H as <- <-. apply IHe in E2. destruct E2 as (t' & -> & Ht').
      exists ((a ++ t ++ b) ++ 44 :: t'). split; [rewrite Er, <- !app_assoc; reflexivity|]. constructor; assumption.
  - destruct (eat 93 (skip_ws r)) as [z'|] eqn:E2; [|discriminate]. injection H as <- <-. apply eat_iff in E2. rewrite E2 in Er. exists (a ++ t ++ b).
      split; [rewrite Er, <- !app_assoc; reflexivity|]. constructor; assumption.
Qed.
Lemma members_sound : forall d val, reads d val -> forall f m s v z, members val f m s = Some (v, z) ->
  exists t ms, s = t ++ 125 :: z /\ members_of d t ms /\ v = JObj (fold_left ins ms m).
Proof.
  intros d val IHv.
  induction f as [|f IHm]; intros m s v z H; [discriminate|]. cbn [members] in H. destruct (skip_sound s) as (a & Es & Ha). destruct (eat 34 (skip_ws s)) as [r1|] eqn:E1; [|discriminate]. apply eat_iff in E1. rewrite E1 in Es. clear E1.
    destruct (string_body r1) as [[k r2]|] eqn:E2; [|discriminate]. apply (body_sound _ r1 k r2 (Nat.le_refl _)) in E2. destruct E2 as (u & -> & Hu).
    destruct (skip_sound r2) as (b & Eb & Hb). destruct (eat 58 (skip_ws r2)) as [r3|] eqn:E3; [|discriminate]. apply eat_iff in E3. rewrite E3 in Eb. clear E3.
    destruct (val r3) as [[x r4]|] eqn:E4; [|discriminate]. apply IHv in E4. destruct E4 as (c & t & -> & Hc & Ht).
    destruct (skip_sound r4) as (e & Ee & He).
    assert (HM : member_of d (a ++ (34 :: u ++ [34]) ++ b ++ 58 :: c ++ t ++ e) k x) by (constructor; try assumption; exists u; auto).
    destruct (eat 44 (skip_ws r4)) as [r5|] eqn:E5.
  - apply eat_iff in E5. rewrite E5 in Ee. apply IHm in H. destruct H as (t' & ms & -> & Hms & ->). exists ((a ++ (34 :: u ++ [34]) ++ b ++ 58 :: c ++ t ++ e) ++ 44 :: t'), ((k, x) :: ms).
      split; [rewrite Es, Eb, Ee; repeat (rewrite <- !app_assoc; cbn [app]); reflexivity|]. split; [constructor; assumption|reflexivity].
  - destruct (eat 125 (skip_ws r4)) as [z'|] eqn:E6; [|discriminate]. apply eat_iff in E6. rewrite E6 in Ee. injection H as <- <-.
      exists (a ++ (34 :: u ++ [34]) ++ b ++ 58 :: c ++ t ++ e), [(k, x)]. split; [rewrite Es, Eb, Ee; repeat (rewrite <- !app_assoc; cbn [app]); reflexivity|]. split; [constructor; exact HM|reflexivity].
Qed.
Lemma sound : forall f d, reads d (value float f d).
Proof.
  induction f as [|f IHv]; intros d s v z H; [discriminate|]. cbn [value] in H. destruct (skip_sound s) as (a & Es & Ha). destruct (skip_ws s) as [|c r]; [discriminate|].
    destruct (N.eqb_spec c 110) as [->|_].
    { destruct (ident (lit "ull") r) as [z'|] eqn:E; [|discriminate]. apply ident_iff in E. injection H as <- <-. subst. exists a, (lit "null"). split; [reflexivity|]. split; [exact Ha|constructor]. }
    destruct (N.eqb_spec c 116) as [->|_].
    { destruct (ident (lit "rue") r) as [z'|] eqn:E; [|discriminate]. apply ident_iff in E. injection H as <- <-. subst. exists a, (lit "true"). split; [reflexivity|]. split; [exact Ha|constructor]. }
    destruct (N.eqb_spec c 102) as [->|_].
    { destruct (ident (lit "alse") r) as [z'|] eqn:E; [|discriminate]. apply ident_iff in E. injection H as <- <-. subst. exists a, (lit "false"). split; [reflexivity|]. split; [exact Ha|constructor]. }
    destruct (N.eqb_spec c 45) as [->|_].
    { apply number_sound in H. destruct H as (ds & fx & l & -> & Hn & Hp & ->). exists a, ([45] ++ ds ++ fx). split; [rewrite Es; f_equal; cbn [app]; f_equal; apply app_assoc|].
      split; [exact Ha|]. exact (TNum float d true ds fx l Hn Hp). }
    destruct (is_digit c).
    { apply number_sound in H. destruct H as (ds & fx & l & E & Hn & Hp & ->). exists a, ([] ++ ds ++ fx). split; [rewrite Es, E; cbn [app]; rewrite <- app_assoc; reflexivity|].
      split; [exact Ha|]. exact (TNum float d false ds fx l Hn Hp). }
    destruct (N.eqb_spec c 34) as [->|_].
    { destruct (string_body r) as [[t z']|] eqn:E; [|discriminate]. injection H as <- <-. apply (body_sound _ r t z' (Nat.le_refl _)) in E. destruct E as (u & -> & Hu).
      exists a, (34 :: u ++ [34]). split; [rewrite Es; cbn [app]; rewrite <- app_assoc; reflexivity|]. split; [exact Ha|]. constructor. exists u. auto. }
    destruct (N.eqb_spec c 91) as [->|_].
    { destruct d as [|d]; [discriminate|]. destruct (eat 93 (skip_ws r)) as [z'|] eqn:Ee.
      - injection H as <- <-. apply eat_iff in Ee. destruct (skip_sound r) as (b & Er & Hb). rewrite Ee in Er. subst r. exists a, (91 :: b ++ [93]).
        split; [rewrite Es; cbn [app]; rewrite <- app_assoc; reflexivity|]. split; [exact Ha|constructor; exact Hb].
      - destruct (elements (value float f d) f r) as [[l z']|] eqn:E; [|discriminate]. injection H as <- <-. apply (elements_sound d (value float f d) (IHv d)) in E. destruct E as (t & -> & Ht). exists a, (91 :: t ++ [93]).
        split; [rewrite Es; cbn [app]; rewrite <- app_assoc; reflexivity|]. split; [exact Ha|constructor; exact Ht]. }
    destruct (N.eqb_spec c 123) as [->|_]; [|discriminate].
    destruct d as [|d]; [discriminate|]. destruct (eat 125 (skip_ws r)) as [z'|] eqn:Ee.
    + injection H as <- <-. apply eat_iff in Ee. destruct (skip_sound r) as (b & Er & Hb). rewrite Ee in Er. subst r. exists a, (123 :: b ++ [125]).
      split; [rewrite Es; cbn [app]; rewrite <- app_assoc; reflexivity|]. split; [exact Ha|constructor; exact Hb].
    + apply (members_sound d (value float f d) (IHv d)) in H. destruct H as (t & ms & -> & Ht & ->). exists a, (123 :: t ++ [125]).
      split; [rewrite Es; cbn [app]; rewrite <- app_assoc; reflexivity|]. split; [exact Ha|]. econstructor; [exact Ht|]. apply fold_object. reflexivity.
Qed.
Scheme spells_ind' := Minimality for SpecJsonText.spells Sort Prop
with list_of_ind' := Minimality for SpecJsonText.list_of Sort Prop
with members_of_ind' := Minimality for SpecJsonText.members_of Sort Prop
with member_of_ind' := Minimality for SpecJsonText.member_of Sort Prop.
Combined Scheme grammar_ind from spells_ind', list_of_ind', members_of_ind', member_of_ind'.
Lemma stop_blank : forall b c z, blank b -> stop (c :: z) -> stop (b ++ c :: z).
Proof. intros [|x b] c z Hb Hs; [exact Hs|]. inversion Hb as [|? ? Hx _]; subst. cbn [app stop]. destruct Hx as [<-|[<-|[<-|[<-|[]]]]]; repeat split; discriminate. Qed.
Lemma stop_comma : forall z, stop (44 :: z). Proof. intros z. repeat split; discriminate. Qed.
Lemma stop_close : forall z, stop (93 :: z). Proof. intros z. repeat split; discriminate. Qed.
Lemma stop_brace : forall z, stop (125 :: z). Proof. intros z. repeat split; discriminate. Qed.
Lemma head_digit : forall c, digit c -> is_ws c = false /\ (c =? 110) = false /\ (c =? 116) = false /\ (c =? 102) = false /\ (c =? 45) = false /\ is_digit c = true.
Proof.
  intros c Hc. pose proof (proj2 (digit_iff c) Hc) as Hd. unfold digit in Hc. unfold is_ws.
  assert (E : forall x, x < 48 \/ 57 < x -> (c =? x) = false) by (intros x Hx; apply N.eqb_neq; lia).
  rewrite !E by lia. repeat split. exact Hd.
Qed.
Lemma head_of : forall d s v, spells d s v -> exists c r, s = c :: r /\ is_ws c = false /\ c <> 93 /\ c <> 125.
Proof.
  intros d s v H. destruct H as [d|d|d|d neg ds fx l ((Hne & Hd) & _) _|d s u (t & -> & _)|d b _|d s l _|d b _|d s ms l _ _].
  all: try (eexists; eexists; split; [reflexivity|repeat split; discriminate]).
  destruct neg; [eexists; eexists; split; [reflexivity|repeat split; discriminate]|]. destruct ds as [|c ds]; [contradiction|]. inversion Hd as [|? ? Hc _]; subst.
  exists c, (ds ++ fx). split; [reflexivity|]. split; [apply (head_digit c Hc)|]. unfold digit in Hc. lia.
Qed.
Lemma list_head : forall d s l, list_of d s l -> exists a c r, s = a ++ c :: r /\ blank a /\ is_ws c = false /\ c <> 93.
Proof.
  intros d s l H. destruct H as [d a s b v Ha Hs _|d a s b v t l Ha Hs _ _]; destruct (head_of d s v Hs) as (c & r & -> & H1 & H2 & _).
  - exists a, c, (r ++ b). auto.
  - exists a, c, (r ++ b ++ 44 :: t). split; [rewrite <- !app_assoc; reflexivity|auto].
Qed.
Lemma members_head : forall d s ms, members_of d s ms -> exists a r, s = a ++ 34 :: r /\ blank a.
Proof.
  intros d s ms H. destruct H as [d s k v Hm|d s k v t ms Hm _]; destruct Hm as [d a q b c s e k v Ha (u & -> & _) _ _ _ _].
  - exists a. eexists. split; [reflexivity|exact Ha].
  - exists a. eexists. split; [rewrite <- app_assoc; reflexivity|exact Ha].
Qed.
Ltac flat := unfold str, char in *.
Lemma complete :
  (forall d s v, spells d s v -> forall (a z : str) f, blank a -> stop z -> (length s <= f)%nat -> value float f d (a ++ s ++ z) = Some (v, z)) /\
  (forall d s l, list_of d s l -> forall (z : str) f F, (length s < f)%nat -> (length s <= F)%nat -> elements (value float F d) f (s ++ 93 :: z) = Some (l, z)) /\
  (forall d s ms, members_of d s ms -> forall (z : str) f F m, (length s < f)%nat -> (length s <= F)%nat ->
     members (value float F d) f m (s ++ 125 :: z) = Some (JObj (fold_left ins ms m), z)) /\
  (forall d s k v, member_of d s k v -> forall (z : str) f F m (w : char), (length s <= F)%nat -> w = 44 \/ w = 125 ->
     members (value float F d) (S f) m (s ++ w :: z) =
     if w =? 44 then members (value float F d) f (imap_insert m k v) z else Some (JObj (imap_insert m k v), z)).
Proof.
  apply grammar_ind.
  - intros d a z [|f] Ha Hz Hf; [cbn in Hf; lia|]. cbn [value]. rewrite skip_blank by exact Ha. reflexivity.
  - intros d a z [|f] Ha Hz Hf; [cbn in Hf; lia|]. cbn [value]. rewrite skip_blank by exact Ha. reflexivity.
  - intros d a z [|f] Ha Hz Hf; [cbn in Hf; lia|]. cbn [value]. rewrite skip_blank by exact Ha. reflexivity.
  - intros d neg ds fx l Hn Hp a z f Ha Hz Hf. pose proof Hn as ((Hne & Hd) & _). destruct ds as [|c ds]; [contradiction|]. inversion Hd as [|? ? Hc _]; subst.
    destruct f as [|f]; [destruct neg; cbn in Hf; lia|]. cbn [value]. rewrite skip_blank by exact Ha. destruct neg.
    + rewrite <- app_assoc. cbn [app]. rewrite skip_stop by reflexivity. change (number float true ((c :: ds ++ fx) ++ z) = Some (JNum l, z)).
      change ((c :: ds ++ fx) ++ z) with (((c :: ds) ++ fx) ++ z). rewrite <- app_assoc. apply number_done; assumption.
    + destruct (head_digit c Hc) as (E1 & E2 & E3 & E4 & E5 & E6). cbn [app]. rewrite skip_stop by exact E1. rewrite E2, E3, E4, E5, E6.
      change (c :: (ds ++ fx) ++ z) with (((c :: ds) ++ fx) ++ z). rewrite <- app_assoc. apply number_done; assumption.
  - intros d s u (t & -> & Ht) a z [|f] Ha Hz Hf; [cbn in Hf; lia|]. cbn [value]. rewrite skip_blank by exact Ha. cbn [app]. rewrite skip_stop by reflexivity.
    change (match string_body ((t ++ [34]) ++ z) with Some (t0, z0) => Some (JStr t0, z0) | None => None end = Some (JStr u, z)). replace (string_body ((t ++ [34]) ++ z)) with (Some (u, z)); [reflexivity|]. rewrite <- app_assoc. symmetry. exact (body_done t u Ht z).
  - intros d b Hb a z [|f] Ha Hz Hf; [cbn in Hf; lia|]. cbn [value]. rewrite skip_blank by exact Ha. cbn [app]. rewrite skip_stop by reflexivity.
    change (match eat 93 (skip_ws ((b ++ [93]) ++ z)) with Some z0 => Some (JArr [], z0) | None => match elements (value float f d) f ((b ++ [93]) ++ z) with Some (l, z0) => Some (JArr l, z0) | None => None end end = Some (JArr [], z)).
    rewrite <- app_assoc, skip_blank by exact Hb. reflexivity.
  - intros d s l Hl IH a z [|f] Ha Hz Hf; [cbn in Hf; lia|]. cbn [value]. rewrite skip_blank by exact Ha. cbn [app]. rewrite skip_stop by reflexivity.
    change (match eat 93 (skip_ws ((s ++ [93]) ++ z)) with Some z0 => Some (JArr [], z0) | None => match elements (value float f d) f ((s ++ [93]) ++ z) with Some (l, z0) => Some (JArr l, z0) | None => None end end = Some (JArr l, z)).
    cbn [length] in Hf. rewrite app_length in Hf. cbn [length] in Hf. rewrite <- app_assoc. cbn [app]. flat. rewrite (IH z f f) by lia.
    destruct (list_head d s l Hl) as (a' & c & r & -> & H1 & H2 & H3). rewrite <- app_assoc, skip_blank by exact H1. cbn [app]. rewrite skip_stop by exact H2. rewrite eat_other by exact H3. reflexivity.
  - intros d b Hb a z [|f] Ha Hz Hf; [cbn in Hf; lia|]. cbn [value]. rewrite skip_blank by exact Ha. cbn [app]. rewrite skip_stop by reflexivity.
    change (match eat 125 (skip_ws ((b ++ [125]) ++ z)) with Some z0 => Some (JObj [], z0) | None => members (value float f d) f [] ((b ++ [125]) ++ z) end = Some (JObj [], z)).
    rewrite <- app_assoc, skip_blank by exact Hb. reflexivity.
  - intros d s ms l Hm IH Ho a z [|f] Ha Hz Hf; [cbn in Hf; lia|]. cbn [value]. rewrite skip_blank by exact Ha. cbn [app]. rewrite skip_stop by reflexivity.
    change (match eat 125 (skip_ws ((s ++ [125]) ++ z)) with Some z0 => Some (JObj [], z0) | None => members (value float f d) f [] ((s ++ [125]) ++ z) end = Some (JObj l, z)).
    cbn [length] in Hf. rewrite app_length in Hf. cbn [length] in Hf. rewrite <- app_assoc. cbn [app]. flat. rewrite (IH z f f []) by lia. apply fold_object in Ho. subst l.
    destruct (members_head d s ms Hm) as (a' & r & -> & H1). rewrite <- app_assoc, skip_blank by exact H1. reflexivity.
  - intros d a s b v Ha Hs IH Hb z [|f] F Hf HF; [lia|]. rewrite !app_length in HF. cbn [elements]. rewrite <- !app_assoc. flat. rewrite IH; [|exact Ha|apply stop_blank; [exact Hb|apply stop_close]|lia].
    rewrite skip_blank by exact Hb. reflexivity.
  - intros d a s b v t l Ha Hs IH Hb Hl IHl z [|f] F Hf HF; [lia|]. rewrite !app_length in Hf, HF. cbn [length] in Hf, HF. cbn [elements]. rewrite <- !app_assoc. cbn [app].
    flat. rewrite IH; [|exact Ha|apply stop_blank; [exact Hb|apply stop_comma]|lia]. rewrite skip_blank by exact Hb. rewrite skip_stop, eat_head by reflexivity. flat. rewrite IHl by lia. reflexivity.
  - intros d s k v Hm IH z [|f] F m Hf HF; [lia|]. flat. rewrite IH by auto. reflexivity.
  - intros d s k v t ms Hm IH Hms IHm z [|f] F m Hf HF; [lia|]. rewrite app_length in Hf, HF. cbn [length] in Hf, HF. rewrite <- app_assoc. cbn [app]. flat. rewrite IH by (auto; lia).
    change (44 =? 44) with true. cbn match. flat. rewrite IHm by lia. reflexivity.
  - intros d a q b c s e k v Ha (u & -> & Hu) Hb Hc Hs IH He z f F m w HF Hw. cbn [members].
    repeat (rewrite !app_length in HF; cbn [length] in HF). repeat (rewrite <- !app_assoc; cbn [app]). rewrite skip_blank by exact Ha. rewrite skip_stop, eat_head by reflexivity.
    flat. rewrite (body_done u k Hu). rewrite skip_blank by exact Hb. rewrite skip_stop, eat_head by reflexivity.
    flat. rewrite IH; [|exact Hc|apply stop_blank; [exact He|destruct Hw as [->| ->]; [apply stop_comma|apply stop_brace]]|lia].
    rewrite skip_blank by exact He. destruct Hw as [->| ->]; reflexivity.
Qed.
Lemma reads_document : forall s v, from_str float s = Some v <-> document float s v.
Proof.
  intros s v. unfold from_str, document. split.
  - destruct (value float (S (length s)) 127 s) as [[v' r]|] eqn:E; [|discriminate]. destruct (skip_ws r) eqn:Er; [|discriminate]. intros [= ->].
    apply sound in E. destruct E as (a & t & -> & Ha & Ht). exists a, t, r. apply skip_all in Er. auto.
  - intros (a & t & b & -> & Ha & Ht & Hb). rewrite (proj1 complete 127%nat t v Ht a b); [|exact Ha| |rewrite !app_length; lia].
    + rewrite (proj2 (skip_all b) Hb). reflexivity.
    + destruct b as [|x b]; [exact I|]. inversion Hb as [|? ? Hx _]; subst. destruct Hx as [<-|[<-|[<-|[<-|[]]]]]; repeat split; discriminate.
Qed.
End Values.
