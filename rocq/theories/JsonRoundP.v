(** * What texts can spell, and printed values read back: proofs for PropJsonText.v *)
From Coq Require Import String.
From Coq Require Import List Arith NArith Bool Lia.
From Verif Require Import Str StrP Json SpecJson JsonP JsonText SpecJsonText JsonTextP.
Import ListNotations.
Local Open Scope N_scope.

(** ** Objects *)
Lemma last_in : forall ms k v, last_of ms k = Some v -> In (k, v) ms.
Proof.
  induction ms as [|[k' v'] ms IH]; intros k v H; cbn [last_of] in H; [discriminate|]. destruct (last_of ms k) eqn:E; [injection H as ->; right; apply IH, E|].
  destruct (str_eqb k' k) eqn:Ek; [|discriminate]. injection H as ->. apply str_eqb_eq in Ek. subst. left. reflexivity.
Qed.
Lemma object_values : forall (P : json -> Prop) ms l, object_of ms l -> Forall (fun kv => P (snd kv)) ms -> NoDup (map fst l) /\ Forall (fun kv => P (snd kv)) l.
Proof.
  intros P ms l [H1 H2] H. split; [rewrite H1; apply firsts_nodup|]. apply Forall_forall. intros [k v] Hin. apply H2, last_in in Hin. rewrite Forall_forall in H. exact (H (k, v) Hin).
Qed.
Lemma firsts_self : forall ks seen, NoDup ks -> (forall k, In k ks -> ~ In k seen) -> firsts seen ks = ks.
Proof.
  induction ks as [|k ks IH]; intros seen Hn Hs; cbn [firsts]; [reflexivity|]. inversion Hn as [|? ? Hk Hn']; subst. destruct (mem k seen) eqn:E.
  - apply mem_in in E. exfalso. apply (Hs k (or_introl eq_refl) E).
  - f_equal. apply IH; [exact Hn'|]. intros x Hx [<-|Hin]; [exact (Hk Hx)|]. exact (Hs x (or_intror Hx) Hin).
Qed.
Lemma last_self : forall l k v, NoDup (map fst l) -> In (k, v) l -> last_of l k = Some v.
Proof.
  induction l as [|[k' v'] l IH]; intros k v Hn Hin; [destruct Hin|]. cbn [map fst] in Hn. inversion Hn as [|? ? Hk Hn']; subst. cbn [last_of]. destruct Hin as [[= -> ->]|Hin].
  - destruct (last_of l k) as [x|] eqn:E; [|rewrite str_eqb_refl; reflexivity]. apply last_in in E. exfalso. apply Hk. apply in_map_iff. exists (k, x). auto.
  - rewrite (IH k v Hn' Hin). reflexivity.
Qed.
Lemma object_self : forall l, NoDup (map fst l) -> object_of l l.
Proof. intros l H. split; [symmetry; apply firsts_self; [exact H|intros k _ []]|]. intros k v Hin. apply last_self; assumption. Qed.

(** ** Values of texts *)
Section Image.
Variable float : str -> option str.
Section All.
Variable P : nat -> json -> Prop.
Hypothesis H1 : forall d, P d JNull.
Hypothesis H2 : forall d b, P d (JBool b).
Hypothesis H3 : forall d neg ds fx l, numeral ds fx -> prints float neg ds fx l -> P d (JNum l).
Hypothesis H4 : forall d s, P d (JStr s).
Hypothesis H5 : forall d l, Forall (P d) l -> P (S d) (JArr l).
Hypothesis H6 : forall d l, NoDup (map fst l) -> Forall (fun kv => P d (snd kv)) l -> P (S d) (JObj l).
Lemma spelt : forall d s v, spells float d s v -> P d v.
Proof.
  enough ((forall d s v, spells float d s v -> P d v) /\ (forall d s l, list_of float d s l -> Forall (P d) l) /\
    (forall d s ms, members_of float d s ms -> Forall (fun kv => P d (snd kv)) ms) /\ (forall d s (k : str) v, member_of float d s k v -> P d v)) as [H _] by exact H.
  apply grammar_ind; eauto.
  - intros d b _. apply H6; constructor.
  - intros d s ms l _ IH Ho. apply H6; eapply object_values; eassumption.
Qed.
End All.
Lemma is_number_chars : forall l, is_number l -> l <> [] /\ Forall (fun c => num_char c = true) l.
Proof.
  intros l (neg & ds & fx & -> & (Hne & Hd) & _ & fr & ex & -> & Hfr & Hex).
  assert (Hdd : forall t, Forall digit t -> Forall (fun c => num_char c = true) t).
  { intros t Ht. eapply Forall_impl; [|exact Ht]. intros c Hc. unfold digit in Hc. unfold num_char. destruct (N.leb_spec 48 c), (N.leb_spec c 57); try lia; reflexivity. }
  split; [destruct neg, ds; try discriminate; contradiction|]. apply Forall_app. split; [destruct neg; repeat constructor|]. apply Forall_app. split; [apply Hdd, Hd|]. apply Forall_app. split.
  - destruct Hfr as [->|(t & -> & _ & Ht)]; [constructor|]. constructor; [reflexivity|apply Hdd, Ht].
  - destruct Hex as [->|(e & sg & t & -> & He & Hsg & _ & Ht)]; [constructor|]. constructor; [destruct He as [<-|[<-|[]]]; reflexivity|].
    apply Forall_app. split; [destruct Hsg as [<-|[<-|[<-|[]]]]; repeat constructor|apply Hdd, Ht].
Qed.
Lemma prints_number : prints_numbers float -> forall neg ds fx l, numeral ds fx -> prints float neg ds fx l -> is_number l.
Proof. intros Hf neg ds fx l Hn [[_ ->]|[_ Hl]]; [exists neg, ds, fx; auto|apply (Hf _ _ Hl)]. Qed.
Lemma from_str_wf : prints_numbers float -> forall s v, from_str float s = Some v -> wf_json v.
Proof.
  intros Hf s v H. apply reads_document in H. destruct H as (a & t & b & _ & _ & H & _). revert H. apply (spelt (fun _ v => wf_json v)); try (intros; exact I).
  - intros _ neg ds fx l Hn Hp. apply is_number_chars, (prints_number Hf neg ds fx l Hn Hp).
  - intros _ l Hl. cbn [wf_json]. induction Hl; cbn [fold_right]; auto.
  - intros _ l _ Hl. cbn [wf_json]. induction Hl; cbn [fold_right]; auto.
Qed.
Lemma prints_own : prints_once float -> forall neg ds fx l, numeral ds fx -> prints float neg ds fx l -> own_number float l.
Proof. intros Hf neg ds fx l Hn Hp. pose proof Hp as [[_ E]|[_ Hl]]; [|apply (Hf _ _ Hl)]. exists neg, ds, fx. auto. Qed.
Lemma from_str_readable : prints_once float -> forall s v, from_str float s = Some v -> readable float 127 v.
Proof.
  intros Hf s v H. apply reads_document in H. destruct H as (a & t & b & _ & _ & H & _). revert H. apply (spelt (readable float)); try (intros; constructor; assumption).
  intros d neg ds fx l Hn Hp. constructor. apply (prints_own Hf neg ds fx l Hn Hp).
Qed.

(** ** Printing *)
Lemma hex_digit_hex : forall n, n < 16 -> hex (hex_digit n) n.
Proof. intros n Hn. unfold hex_digit, hex, digit. destruct (N.ltb_spec n 10); [left|right; left]; lia. Qed.
Lemma written_esc : forall c, written (esc_char c) c.
Proof.
  intros c. unfold esc_char. destruct (N.eqb_spec c 34) as [->|]; [constructor; cbn; tauto|]. destruct (N.eqb_spec c 92) as [->|]; [constructor; cbn; tauto|].
  destruct (N.eqb_spec c 8) as [->|]; [constructor; cbn; tauto|]. destruct (N.eqb_spec c 9) as [->|]; [constructor; cbn; tauto|]. destruct (N.eqb_spec c 10) as [->|]; [constructor; cbn; tauto|].
  destruct (N.eqb_spec c 12) as [->|]; [constructor; cbn; tauto|]. destruct (N.eqb_spec c 13) as [->|]; [constructor; cbn; tauto|]. destruct (N.ltb_spec c 32); [|constructor; assumption].
  apply WUnit; [|unfold high; lia|unfold low; lia]. exists 48, 48, (hex_digit (c / 16)), (hex_digit (c mod 16)), 0, 0, (c / 16), (c mod 16). split; [reflexivity|].
  split; [left; unfold digit; lia|]. split; [left; unfold digit; lia|]. split; [apply hex_digit_hex, N.div_lt_upper_bound; lia|]. split; [apply hex_digit_hex, N.mod_lt; lia|].
  pose proof (N.div_mod c 16). lia.
Qed.
Lemma contents_esc : forall s, contents (flat_map esc_char s) s.
Proof. induction s as [|c s IH]; cbn [flat_map]; constructor; [apply written_esc|exact IH]. Qed.
Lemma quoted_quote : forall s, quoted (quote_str s) s.
Proof. intros s. exists (flat_map esc_char s). split; [reflexivity|apply contents_esc]. Qed.
Lemma blank0 : blank []. Proof. constructor. Qed.
Lemma spells_text : forall v d, readable float d v -> spells float d (to_string v) v.
Proof.
  intros v. induction v as [|b|n|s|l IH|l IH] using json_nested; intros d H; inversion H as [d0|d0 b0|d0 l0 Hn|d0 s0|d0 l0 Hl|d0 l0 Hd Hl]; subst.
  - constructor.
  - destruct b; constructor.
  - destruct Hn as (neg & ds & fx & E & Hn & Hp). cbn [to_string]. rewrite E at 1. constructor; assumption.
  - cbn [to_string]. constructor. apply quoted_quote.
  - rewrite to_string_arr. change (spells float (S d0) (91 :: arr_text l ++ [93]) (JArr l)). destruct l as [|x l]; [apply (TArr0 float d0 []), blank0|]. apply TArr. clear H.
    revert x IH Hl. induction l as [|y l IHl]; intros x IH Hl; inversion IH as [|? ? IHx IHr]; inversion Hl as [|? ? Hx Hr]; subst.
    + cbn [arr_text]. rewrite <- (app_nil_r (to_string x)). apply (LOne float d0 [] (to_string x) [] x); [apply blank0|apply IHx, Hx|apply blank0].
    + change (arr_text (x :: y :: l)) with (to_string x ++ 44 :: arr_text (y :: l)). rewrite <- (app_nil_r (to_string x)).
      apply (LMore float d0 [] (to_string x) [] x); [apply blank0|apply IHx, Hx|apply blank0|apply IHl; assumption].
  - rewrite to_string_obj. change (spells float (S d0) (123 :: obj_text l ++ [125]) (JObj l)). destruct l as [|x l]; [apply (TObj0 float d0 []), blank0|]. apply (TObj float d0 _ (x :: l)); [|apply object_self, Hd]. clear H Hd.
    assert (Hm : forall k v, readable float d0 v -> (forall d, readable float d v -> spells float d (to_string v) v) -> member_of float d0 (quote_str k ++ 58 :: to_string v) k v).
    { intros k v Hv Hs. rewrite <- (app_nil_r (to_string v)). apply (Member float d0 [] (quote_str k) [] [] (to_string v) [] k v); try apply blank0; [apply quoted_quote|apply Hs, Hv]. }
    revert x IH Hl. induction l as [|y l IHl]; intros [k v] IH Hl; inversion IH as [|? ? IHx IHr]; inversion Hl as [|? ? Hx Hr]; subst; cbn [snd] in *.
    + apply MOne, Hm; assumption.
    + change (obj_text ((k, v) :: y :: l)) with (quote_str k ++ 58 :: to_string v ++ 44 :: obj_text (y :: l)).
      replace (quote_str k ++ 58 :: to_string v ++ 44 :: obj_text (y :: l)) with ((quote_str k ++ 58 :: to_string v) ++ 44 :: obj_text (y :: l)) by (rewrite <- app_assoc; reflexivity).
      apply MMore; [apply Hm; assumption|apply IHl; assumption].
Qed.
Lemma from_str_text : forall v, readable float 127 v -> from_str float (to_string v) = Some v.
Proof. intros v H. apply reads_document. exists [], (to_string v), []. split; [symmetry; apply app_nil_r|]. split; [apply blank0|]. split; [apply spells_text, H|apply blank0]. Qed.
Lemma image : prints_once float -> forall v, (exists s, document float s v) <-> readable float 127 v.
Proof.
  intros Hf v. split; [intros [s H]; apply (from_str_readable Hf s), reads_document, H|]. intros H. exists (to_string v). apply reads_document, from_str_text, H.
Qed.
Lemma unique : forall s v v', document float s v -> document float s v' -> v = v'.
Proof. intros s v v' H H'. apply reads_document in H, H'. congruence. Qed.
End Image.
