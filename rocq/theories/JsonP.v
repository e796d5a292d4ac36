(** * [to_string] is injective on the values a JSON parser produces. *)
From Coq Require Import String.
From Coq Require Import List Arith NArith Bool Lia.
From Verif Require Import Str StrP Json SpecJson.
Import ListNotations.

Lemma hex_inj : forall a b, (a < 16)%N -> (b < 16)%N -> hex_digit a = hex_digit b -> a = b.
Proof.
  intros a b Ha Hb. unfold hex_digit. destruct (N.ltb_spec a 10), (N.ltb_spec b 10); intros; lia.
Qed.
Lemma esc_head : forall c, exists x r, esc_char c = x :: r /\ x <> c_quote.
Proof.
  intros c. unfold esc_char. repeat (match goal with |- context [if ?b then _ else _] => destruct b eqn:? end);
    try (eexists _, _; split; [reflexivity|discriminate]).
  eexists _, _; split; [reflexivity|]. intros ->. discriminate.
Qed.
(** The escapes: what follows the backslash. *)
Lemma esc_inj : forall c d x y, esc_char c ++ x = esc_char d ++ y -> c = d /\ x = y.
Proof.
  intros c d x y. unfold esc_char.
  destruct (N.eqb_spec c 34) as [->|C1]; [|destruct (N.eqb_spec c 92) as [->|C2]; [|destruct (N.eqb_spec c 8) as [->|C3];
    [|destruct (N.eqb_spec c 9) as [->|C4]; [|destruct (N.eqb_spec c 10) as [->|C5]; [|destruct (N.eqb_spec c 12) as [->|C6];
    [|destruct (N.eqb_spec c 13) as [->|C7]; [|destruct (N.ltb_spec c 32) as [C8|C8]]]]]]]];
  (destruct (N.eqb_spec d 34) as [->|D1]; [|destruct (N.eqb_spec d 92) as [->|D2]; [|destruct (N.eqb_spec d 8) as [->|D3];
    [|destruct (N.eqb_spec d 9) as [->|D4]; [|destruct (N.eqb_spec d 10) as [->|D5]; [|destruct (N.eqb_spec d 12) as [->|D6];
    [|destruct (N.eqb_spec d 13) as [->|D7]; [|destruct (N.ltb_spec d 32) as [D8|D8]]]]]]]]);
  cbn [app]; intros H; try (injection H; intros; subst; auto; congruence).
  injection H as H1 H2 H3. split; [|exact H3].
  assert (Hq : (c / 16 = d / 16)%N) by (apply hex_inj; [apply N.div_lt_upper_bound; lia..|exact H1]).
  assert (Hr : (c mod 16 = d mod 16)%N) by (apply hex_inj; [apply N.mod_lt; lia..|exact H2]).
  rewrite (N.div_mod c 16), (N.div_mod d 16), Hq, Hr by lia. reflexivity.
Qed.
Lemma quote_inj : forall s t x y, quote_str s ++ x = quote_str t ++ y -> s = t /\ x = y.
Proof.
  intros s t x y. unfold quote_str. cbn [app]. intros H. injection H as H. rewrite <- !app_assoc in H. cbn [app] in H.
  revert t H. induction s as [|c s IH]; intros [|d t] H; cbn [flat_map app] in H.
  - injection H as H. auto.
  - exfalso. destruct (esc_head d) as (z & r & E & Hz). rewrite E in H. cbn [app] in H. injection H as H _. congruence.
  - exfalso. destruct (esc_head c) as (z & r & E & Hz). rewrite E in H. cbn [app] in H. injection H as H _. congruence.
  - rewrite <- !app_assoc in H. apply esc_inj in H. destruct H as [-> H]. apply IH in H. destruct H as [-> ->]. auto.
Qed.

Definition arr_text : list json -> str := fix arr (l : list json) : str :=
  match l with [] => [] | [x] => to_string x | x :: r => to_string x ++ lit "," ++ arr r end.
Definition obj_text : list (str * json) -> str := fix obj (l : list (str * json)) : str :=
  match l with
  | [] => []
  | [(k, x)] => quote_str k ++ lit ":" ++ to_string x
  | (k, x) :: r => quote_str k ++ lit ":" ++ to_string x ++ lit "," ++ obj r
  end.
Lemma to_string_arr : forall l, to_string (JArr l) = lit "[" ++ arr_text l ++ lit "]".
Proof. reflexivity. Qed.
Lemma to_string_obj : forall l, to_string (JObj l) = lit "{" ++ obj_text l ++ lit "}".
Proof. reflexivity. Qed.

Definition comma : char := 44%N.
Definition rsq : char := 93%N.
Definition rcu : char := 125%N.
Definition closes (r : str) : Prop := match r with [] => True | c :: _ => c = comma \/ c = rsq \/ c = rcu end.
Definition jhead (j : json) : nat :=
  match j with JNull => 0 | JBool true => 1 | JBool false => 2 | JNum _ => 3 | JStr _ => 4 | JArr _ => 5 | JObj _ => 6 end.
(** The first character tells the kind. *)
Definition first_of (j : json) : char -> Prop :=
  match j with
  | JNull => fun c => c = 110%N
  | JBool true => fun c => c = 116%N
  | JBool false => fun c => c = 102%N
  | JNum _ => fun c => num_char c = true
  | JStr _ => fun c => c = c_quote
  | JArr _ => fun c => c = 91%N
  | JObj _ => fun c => c = 123%N
  end.
Lemma first_char : forall j, wf_json j -> exists c r, to_string j = c :: r /\ first_of j c.
Proof.
  intros j H. destruct j as [|[|]|n|s|l|l]; try (eexists _, _; split; reflexivity).
  destruct H as [Hne Hall]. destruct n as [|c n]; [congruence|]. exists c, n. split; [reflexivity|].
  inversion Hall; subst. assumption.
Qed.
Lemma num_char_closes : forall c r, num_char c = true -> closes (c :: r) -> False.
Proof. intros c r H [-> | [-> | ->]]; discriminate. Qed.
Lemma same_kind : forall j j' r r', wf_json j -> wf_json j' -> to_string j ++ r = to_string j' ++ r' -> jhead j = jhead j'.
Proof.
  intros j j' r r' H H' E. destruct (first_char j H) as (c & x & E1 & F1). destruct (first_char j' H') as (c' & x' & E2 & F2).
  rewrite E1, E2 in E. cbn [app] in E. injection E as <- _.
  destruct j as [|[|]|n|s|l|l], j' as [|[|]|n'|s'|l'|l']; cbn [first_of jhead] in *; try reflexivity; subst; try discriminate.
Qed.
Lemma num_inj : forall n n' r r', Forall (fun c => num_char c = true) n -> Forall (fun c => num_char c = true) n' ->
  closes r -> closes r' -> n ++ r = n' ++ r' -> n = n' /\ r = r'.
Proof.
  induction n as [|c n IH]; intros [|c' n'] r r' Hn Hn' Hr Hr' E; cbn [app] in E.
  - auto.
  - exfalso. subst r. inversion Hn'; subst. eapply num_char_closes; eassumption.
  - exfalso. subst r'. inversion Hn; subst. eapply num_char_closes; eassumption.
  - injection E as -> E. inversion Hn; inversion Hn'; subst. destruct (IH n' r r') as [-> ->]; auto.
Qed.
Lemma json_nested : forall P : json -> Prop, P JNull -> (forall b, P (JBool b)) -> (forall n, P (JNum n)) -> (forall s, P (JStr s)) ->
  (forall l, Forall P l -> P (JArr l)) -> (forall l, Forall (fun x => P (snd x)) l -> P (JObj l)) -> forall j, P j.
Proof.
  intros P H1 H2 H3 H4 H5 H6. fix IH 1. intros [|b|n|s|l|l]; [exact H1|apply H2|apply H3|apply H4|apply H5|apply H6].
  - induction l as [|x l IHl]; constructor; [apply IH|exact IHl].
  - induction l as [|x l IHl]; constructor; [apply IH|exact IHl].
Qed.
Lemma json_text_inj : forall j j' r r', wf_json j -> wf_json j' -> closes r -> closes r' ->
  to_string j ++ r = to_string j' ++ r' -> j = j' /\ r = r'.
Proof.
  intros j. induction j as [|b|n|s|l IH|l IH] using json_nested; intros j' r r' H H' Hr Hr' E;
    pose proof (same_kind _ _ _ _ H H' E) as Hk; try destruct b; destruct j' as [|[|]|n'|s'|l'|l']; cbn [jhead] in Hk; try discriminate Hk; clear Hk.
  - cbn in E. injection E as E. auto.
  - cbn in E. injection E as E. auto.
  - cbn in E. injection E as E. auto.
  - cbn [to_string] in E. destruct H, H'. apply num_inj in E; auto. destruct E as [-> ->]. auto.
  - cbn [to_string] in E. apply quote_inj in E. destruct E as [-> ->]. auto.
  - rewrite !to_string_arr, <- !app_assoc in E. cbn [app lit] in E.
    change (lit "[" ++ arr_text l ++ lit "]" ++ r) with (91%N :: arr_text l ++ lit "]" ++ r) in E.
    change (lit "[" ++ arr_text l' ++ lit "]" ++ r') with (91%N :: arr_text l' ++ lit "]" ++ r') in E. injection E as E.
    cbn [wf_json] in H, H'.
    assert (Hgo : forall l', fold_right (fun x P => wf_json x /\ P) True l' ->
       arr_text l ++ rsq :: r = arr_text l' ++ rsq :: r' -> l = l' /\ r = r').
    { clear E l' H'. revert H. induction IH as [|x l IHx IHF IHl]; intros H l' H' E.
      - destruct l' as [|x' l']; [cbn in E; injection E as E; auto|]. exfalso.
        cbn [fold_right] in H'. destruct H' as [Hx' _]. destruct (first_char x' Hx') as (c & y & Ex & Hc).
        destruct l' as [|y' l']; cbn [arr_text] in E; rewrite Ex in E; cbn in E; injection E as E _; subst c;
          destruct x' as [|[|]| | | |]; discriminate.
      - destruct l' as [|x' l'].
        + exfalso. cbn [fold_right] in H. destruct H as [Hx _]. destruct (first_char x Hx) as (c & y & Ex & Hc).
          destruct l as [|y' l]; cbn [arr_text] in E; rewrite Ex in E; cbn in E; injection E as E _; subst c;
            destruct x as [|[|]| | | |]; discriminate.
        + cbn [fold_right] in H, H'. destruct H as [Hx Hl], H' as [Hx' Hl'].
          destruct l as [|y l], l' as [|y' l']; cbn [arr_text] in E; rewrite <- ?app_assoc in E.
          * apply IHx in E; auto; try (cbn; auto). destruct E as [-> E]. injection E as ->. auto.
          * exfalso. apply IHx in E; auto; try (cbn; auto). destruct E as [_ E]. discriminate E.
          * exfalso. apply IHx in E; auto; try (cbn; auto). destruct E as [_ E]. discriminate E.
          * apply IHx in E; auto; try (cbn; auto; fail). destruct E as [-> E].
            match type of E with _ ++ ?a = _ ++ ?b => change (comma :: a = comma :: b) in E end.
            injection E as E. apply (IHl Hl (y' :: l') Hl') in E. destruct E as [E ->]. rewrite E. auto. }
    apply Hgo in E; [|exact H']. destruct E as [-> ->]. auto.
  - rewrite !to_string_obj, <- !app_assoc in E.
    change (lit "{" ++ obj_text l ++ lit "}" ++ r) with (123%N :: obj_text l ++ lit "}" ++ r) in E.
    change (lit "{" ++ obj_text l' ++ lit "}" ++ r') with (123%N :: obj_text l' ++ lit "}" ++ r') in E. injection E as E.
    cbn [wf_json] in H, H'.
    assert (Hgo : forall l', fold_right (fun x P => wf_json (snd x) /\ P) True l' ->
       obj_text l ++ rcu :: r = obj_text l' ++ rcu :: r' -> l = l' /\ r = r').
    { clear E l' H'. revert H. induction IH as [|[k x] l IHx IHF IHl]; intros H l' H' E; cbn [snd] in *.
      - destruct l' as [|[k' x'] l']; [cbn in E; injection E as E; auto|]. exfalso.
        destruct l' as [|[y1 y2] l']; cbn [obj_text quote_str app] in E; discriminate E.
      - destruct l' as [|[k' x'] l'].
        + exfalso. destruct l as [|[y1 y2] l]; cbn [obj_text quote_str app] in E; discriminate E.
        + cbn [fold_right snd] in H, H'. destruct H as [Hx Hl], H' as [Hx' Hl'].
          destruct l as [|[k2 y] l], l' as [|[k2' y'] l']; cbn [obj_text] in E; rewrite <- ?app_assoc in E;
            apply quote_inj in E; destruct E as [-> E];
            match type of E with _ ++ ?a = _ ++ ?b => change (58%N :: a = 58%N :: b) in E end; injection E as E;
            apply IHx in E; auto; try (cbn; auto; fail); destruct E as [-> E]; try (exfalso; discriminate E).
          * injection E as ->. auto.
          * change (comma :: obj_text ((k2, y) :: l) ++ rcu :: r = comma :: obj_text ((k2', y') :: l') ++ rcu :: r') in E.
            injection E as E. apply (IHl Hl ((k2', y') :: l') Hl') in E. destruct E as [E ->]. rewrite E. auto. }
    apply Hgo in E; [|exact H']. destruct E as [-> ->]. auto.
Qed.
Lemma to_string_inj : forall j j', wf_json j -> wf_json j' -> to_string j = to_string j' -> j = j'.
Proof.
  intros j j' H H' E. destruct (json_text_inj j j' [] [] H H' I I) as [Hj _]; [rewrite E; reflexivity|exact Hj].
Qed.
Lemma wf_get : forall j k v, wf_json j -> jget j k = Some v -> wf_json v.
Proof.
  intros j k v H E. destruct j as [| | | | |l]; try discriminate. cbn [jget] in E. apply imap_get_In in E.
  cbn [wf_json] in H. induction l as [|x l IH]; [contradiction|]. cbn [fold_right] in H. destruct H as [Hx Hl].
  destruct E as [->|E]; [exact Hx|]. apply IH; assumption.
Qed.
