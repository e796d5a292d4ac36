(** * Facts about strings and ordered maps. *)
From Coq Require Import String.
From Coq Require Import List Arith NArith Bool Lia.
From Verif Require Import Str.
Import ListNotations.

Lemma str_eqb_spec : forall a b, reflect (a = b) (str_eqb a b).
Proof.
  induction a as [|x a IH]; intros [|y b]; cbn [str_eqb]; try (constructor; congruence).
  destruct (N.eqb_spec x y) as [->|Hn]; cbn [andb].
  - destruct (IH b) as [->|Hn]; constructor; congruence.
  - constructor; congruence.
Qed.
Lemma str_eqb_eq : forall a b, str_eqb a b = true <-> a = b.
Proof. intros a b. destruct (str_eqb_spec a b); split; congruence. Qed.
Lemma str_eqb_refl : forall a, str_eqb a a = true.
Proof. intros a. apply str_eqb_eq. reflexivity. Qed.
Lemma str_eqb_neq : forall a b, str_eqb a b = false <-> a <> b.
Proof. intros a b. destruct (str_eqb_spec a b); split; congruence. Qed.
Lemma str_eqb_sym : forall a b, str_eqb a b = str_eqb b a.
Proof. intros a b. destruct (str_eqb_spec a b), (str_eqb_spec b a); congruence. Qed.
Lemma str_eq_dec : forall a b : str, {a = b} + {a <> b}.
Proof. intros a b. destruct (str_eqb_spec a b); [left|right]; assumption. Qed.

Lemma starts_with_spec : forall p s, starts_with s p = true <-> exists r, s = p ++ r.
Proof.
  induction p as [|y p IH]; intros s.
  - destruct s; cbn; split; intros _; try reflexivity; [exists [] | eexists]; reflexivity.
  - destruct s as [|x s]; cbn [starts_with].
    + split; [discriminate|]. intros [r Hr]. discriminate.
    + rewrite andb_true_iff, IH, N.eqb_eq. split.
      * intros [-> [r ->]]. exists r. reflexivity.
      * intros [r Hr]. inversion Hr; subst. split; [reflexivity|]. exists r. reflexivity.
Qed.
Lemma starts_with_app : forall p r, starts_with (p ++ r) p = true.
Proof. intros. apply starts_with_spec. eexists; reflexivity. Qed.
Lemma starts_with_false : forall p s, starts_with s p = false <-> ~ exists r, s = p ++ r.
Proof.
  intros p s. rewrite <- starts_with_spec. destruct (starts_with s p); split; intros; congruence.
Qed.
Lemma starts_with_nil : forall s, starts_with s [] = true.
Proof. intros []; reflexivity. Qed.
Lemma starts_with_skipn : forall p s, starts_with s p = true -> s = p ++ skipn (length p) s.
Proof.
  intros p s H. apply starts_with_spec in H. destruct H as [r ->].
  rewrite skipn_app, skipn_all, Nat.sub_diag. reflexivity.
Qed.

Lemma starts_with_char_spec : forall s c, starts_with_char s c = true <-> exists r, s = c :: r.
Proof.
  intros [|x s] c; cbn; split; try discriminate.
  - intros [r Hr]. discriminate.
  - intros ->%N.eqb_eq. eexists; reflexivity.
  - intros [r Hr]. inversion Hr. apply N.eqb_refl.
Qed.

Lemma ends_with_char_spec : forall s c, ends_with_char s c = true <-> exists r, s = r ++ [c].
Proof.
  induction s as [|x s IH]; intros c; cbn [ends_with_char].
  - split; [discriminate|]. intros [r Hr]. destruct r; discriminate.
  - destruct s as [|y s].
    + rewrite N.eqb_eq. split.
      * intros ->. exists []. reflexivity.
      * intros [r Hr]. destruct r as [|z r]; inversion Hr; [reflexivity|]. destruct r; discriminate.
    + rewrite IH. split.
      * intros [r ->]. exists (x :: r). reflexivity.
      * intros [r Hr]. destruct r as [|z r]; inversion Hr. exists r. assumption.
Qed.

Lemma contains_spec : forall s p, contains s p = true <-> exists a b, s = a ++ p ++ b.
Proof.
  induction s as [|x s IH]; intros p; cbn [contains]; rewrite orb_true_iff, starts_with_spec.
  - split.
    + intros [[r Hr]|H]; [|discriminate]. exists [], r. exact Hr.
    + intros [a [b H]]. destruct a; [|discriminate]. left. exists b. exact H.
  - rewrite IH. split.
    + intros [[r ->]|[a [b ->]]]; [exists [], r | exists (x :: a), b]; reflexivity.
    + intros [a [b H]]. destruct a as [|y a].
      * left. exists b. exact H.
      * right. inversion H. exists a, b. reflexivity.
Qed.

Lemma mem_In : forall s l, mem s l = true <-> In s l.
Proof.
  intros s l. unfold mem. rewrite existsb_exists. split.
  - intros [x [Hx ->%str_eqb_eq]]. exact Hx.
  - intros H. exists s. rewrite str_eqb_refl. auto.
Qed.

Lemma find_char_some : forall s c a b, find_char s c = Some (a, b) -> s = a ++ c :: b /\ ~ In c a.
Proof.
  induction s as [|x s IH]; intros c a b; cbn [find_char]; [discriminate|].
  destruct (N.eqb_spec x c) as [->|Hn].
  - intros H; inversion H; subst. split; [reflexivity|intros []].
  - destruct (find_char s c) as [[a' b']|] eqn:E; [|discriminate].
    intros H; inversion H; subst. destruct (IH _ _ _ E) as [-> Hin].
    split; [reflexivity|]. intros [->|Hi]; auto.
Qed.
Lemma find_char_none : forall s c, find_char s c = None <-> ~ In c s.
Proof.
  induction s as [|x s IH]; intros c; cbn [find_char In]; [split; intros; [tauto|reflexivity]|].
  destruct (N.eqb_spec x c) as [->|Hn].
  - split; [discriminate|]. tauto.
  - destruct (find_char s c) as [[a b]|] eqn:E.
    + split; [discriminate|]. intros H. exfalso. apply H. right.
      destruct (find_char_some _ _ _ _ E) as [-> _]. apply in_or_app. right. left. reflexivity.
    + apply IH in E. split; [|reflexivity]. intros _ [Hi|Hi]; [congruence|contradiction].
Qed.
Lemma find_char_first : forall a b c, ~ In c a -> find_char (a ++ c :: b) c = Some (a, b).
Proof.
  induction a as [|x a IH]; intros b c H; cbn [app find_char].
  - rewrite N.eqb_refl. reflexivity.
  - cbn [In] in H. destruct (N.eqb_spec x c) as [->|]; [tauto|].
    rewrite IH by tauto. reflexivity.
Qed.

Lemma replace_char_none : forall s c t, ~ In c s -> replace_char s c t = s.
Proof.
  induction s as [|x s IH]; intros c t H; cbn; [reflexivity|]. cbn [In] in H.
  destruct (N.eqb_spec x c) as [->|]; [tauto|]. cbn [app]. unfold replace_char in IH.
  rewrite IH by tauto. reflexivity.
Qed.
Lemma replace_char_app : forall a b c t, replace_char (a ++ b) c t = replace_char a c t ++ replace_char b c t.
Proof. intros. apply flat_map_app. Qed.

(** ** Byte lengths *)
Lemma utf8_len_pos : forall c, 1 <= utf8_len c.
Proof. intros c. unfold utf8_len. repeat destruct (N.ltb _ _); lia. Qed.
Lemma blen_app : forall a b, blen (a ++ b) = blen a + blen b.
Proof. induction a as [|x a IH]; intros b; cbn [app blen]; [reflexivity|]. rewrite IH. lia. Qed.
Lemma blen_length : forall s, length s <= blen s.
Proof. induction s as [|x s IH]; cbn [length blen]; [lia|]. pose proof (utf8_len_pos x). lia. Qed.
Lemma blen_0 : forall s, blen s = 0 -> s = [].
Proof. intros s H. pose proof (blen_length s). destruct s; cbn [length] in *; [reflexivity|lia]. Qed.

Lemma byte_split_0 : forall s, byte_split s 0 = Some ([], s).
Proof. intros []; reflexivity. Qed.
Lemma byte_split_app : forall a b, byte_split (a ++ b) (blen a) = Some (a, b).
Proof.
  induction a as [|x a IH]; intros b; cbn [app blen].
  - apply byte_split_0.
  - pose proof (utf8_len_pos x) as Hp.
    destruct (utf8_len x + blen a) as [|n] eqn:E; [lia|]. cbn [byte_split]. rewrite <- E.
    destruct (Nat.ltb_spec (utf8_len x + blen a) (utf8_len x)); [lia|].
    replace (utf8_len x + blen a - utf8_len x) with (blen a) by lia.
    rewrite IH. reflexivity.
Qed.
Lemma byte_split_some : forall s n a b, byte_split s n = Some (a, b) -> s = a ++ b /\ blen a = n.
Proof.
  induction s as [|x s IH]; intros n a b; destruct n as [|n]; cbn [byte_split].
  - intros H; inversion H; subst; auto.
  - discriminate.
  - intros H; inversion H; subst; auto.
  - destruct (Nat.ltb_spec (S n) (utf8_len x)) as [|Hge]; [discriminate|].
    destruct (byte_split s (S n - utf8_len x)) as [[a' b']|] eqn:E; [|discriminate].
    intros H; inversion H; subst. destruct (IH _ _ _ E) as [-> Hb].
    split; [reflexivity|]. cbn [blen]. lia.
Qed.

(** ASCII strings: one byte per character. *)
Definition ascii_str (s : str) : Prop := Forall (fun c => (c < 128)%N) s.
Lemma ascii_blen : forall s, ascii_str s -> blen s = length s.
Proof.
  induction s as [|x s IH]; intros H; cbn [blen length]; [reflexivity|].
  inversion H; subst. rewrite IH by assumption. unfold utf8_len.
  destruct (N.ltb_spec x 128); [reflexivity|lia].
Qed.

(** ** split / join *)
Lemma split_on_cons_ne : forall c s, exists h t, split_on c s = h :: t.
Proof.
  induction s as [|x s IH]; cbn [split_on]; [eauto|].
  destruct (N.eqb x c); [eauto|]. destruct IH as [h [t ->]]. eauto.
Qed.
Lemma join_split : forall c s, join_on c (split_on c s) = s.
Proof.
  induction s as [|x s IH]; cbn [split_on]; [reflexivity|].
  destruct (N.eqb_spec x c) as [->|Hn].
  - destruct (split_on_cons_ne c s) as [h [t E]]. rewrite E in *.
    change (join_on c ([] :: h :: t)) with ([] ++ c :: join_on c (h :: t)).
    rewrite IH. reflexivity.
  - destruct (split_on_cons_ne c s) as [h [t E]]. rewrite E in *.
    destruct t; cbn [join_on] in *; rewrite <- IH; reflexivity.
Qed.
Lemma split_on_nosep : forall c s, ~ In c s -> split_on c s = [s].
Proof.
  induction s as [|x s IH]; intros H; cbn [split_on]; [reflexivity|]. cbn [In] in H.
  destruct (N.eqb_spec x c) as [->|]; [tauto|]. rewrite IH by tauto. reflexivity.
Qed.
Lemma split_on_app : forall c a b, ~ In c a -> split_on c (a ++ c :: b) = a :: split_on c b.
Proof.
  induction a as [|x a IH]; intros b H; cbn [app split_on].
  - rewrite N.eqb_refl. reflexivity.
  - cbn [In] in H. destruct (N.eqb_spec x c) as [->|]; [tauto|]. rewrite IH by tauto. reflexivity.
Qed.
Lemma split_on_no_in : forall c s x, In x (split_on c s) -> ~ In c x.
Proof.
  induction s as [|y s IH]; intros x; cbn [split_on].
  - intros [<-|[]] [].
  - destruct (N.eqb_spec y c) as [->|Hn].
    + intros [<-|H]; [intros []|]. apply IH. exact H.
    + destruct (split_on_cons_ne c s) as [h [t E]]. rewrite E in *.
      intros [<-|H].
      * intros [->|Hc]; [congruence|]. apply (IH h); [left; reflexivity|exact Hc].
      * apply IH. right. exact H.
Qed.

(** ** Ordered maps *)
Lemma imap_get_insert_eq {A} : forall (m : imap A) k v, imap_get (imap_insert m k v) k = Some v.
Proof.
  induction m as [|[k' v'] m IH]; intros k v; cbn [imap_insert imap_get].
  - rewrite str_eqb_refl. reflexivity.
  - destruct (str_eqb k' k) eqn:E; cbn [imap_get]; rewrite E; [reflexivity|]. apply IH.
Qed.
Lemma imap_get_insert_ne {A} : forall (m : imap A) k k' v, k <> k' ->
  imap_get (imap_insert m k v) k' = imap_get m k'.
Proof.
  induction m as [|[k0 v0] m IH]; intros k k' v H; cbn [imap_insert imap_get].
  - destruct (str_eqb_spec k k'); [congruence|reflexivity].
  - destruct (str_eqb_spec k0 k) as [->|Hn]; cbn [imap_get].
    + destruct (str_eqb_spec k k'); [congruence|reflexivity].
    + destruct (str_eqb k0 k'); [reflexivity|]. apply IH. exact H.
Qed.
Lemma imap_get_In {A} : forall (m : imap A) k v, imap_get m k = Some v -> In (k, v) m.
Proof.
  induction m as [|[k' v'] m IH]; intros k v; cbn [imap_get]; [discriminate|].
  destruct (str_eqb_spec k' k) as [->|].
  - intros H; inversion H; left; reflexivity.
  - intros H. right. apply IH. exact H.
Qed.
Lemma imap_get_None {A} : forall (m : imap A) k, imap_get m k = None <-> ~ In k (map fst m).
Proof.
  induction m as [|[k' v'] m IH]; intros k; cbn [imap_get map fst In]; [tauto|].
  destruct (str_eqb_spec k' k) as [->|].
  - split; [discriminate|tauto].
  - rewrite IH. tauto.
Qed.
Lemma imap_In_get {A} : forall (m : imap A) k v, NoDup (map fst m) -> In (k, v) m -> imap_get m k = Some v.
Proof.
  induction m as [|[k' v'] m IH]; intros k v Hd; cbn [map fst In imap_get] in *; [tauto|].
  inversion Hd as [|? ? Hni Hd']; subst. intros [H|H].
  - inversion H; subst. rewrite str_eqb_refl. reflexivity.
  - destruct (str_eqb_spec k' k) as [->|].
    + exfalso. apply Hni. apply in_map_iff. exists (k, v). auto.
    + apply IH; assumption.
Qed.
Lemma imap_insert_keys {A} : forall (m : imap A) k v x,
  In x (map fst (imap_insert m k v)) <-> x = k \/ In x (map fst m).
Proof.
  induction m as [|[k' v'] m IH]; intros k v x; cbn [imap_insert map fst In].
  - intuition congruence.
  - destruct (str_eqb_spec k' k) as [->|]; cbn [map fst In].
    + intuition congruence.
    + rewrite IH. intuition congruence.
Qed.
Lemma imap_insert_nodup {A} : forall (m : imap A) k v, NoDup (map fst m) -> NoDup (map fst (imap_insert m k v)).
Proof.
  induction m as [|[k' v'] m IH]; intros k v H; cbn [imap_insert map fst] in *.
  - constructor; [intros []|constructor].
  - inversion H as [|? ? Hn Hd]; subst. destruct (str_eqb_spec k' k) as [->|Hne]; cbn [map fst].
    + constructor; assumption.
    + constructor; [|apply IH; assumption]. rewrite imap_insert_keys. intuition congruence.
Qed.

(** ** Permutations of hash-map orders *)
Require Import Coq.Sorting.Permutation.
Lemma insert_at_perm {A} : forall n (x : A) l, Permutation (insert_at n x l) (x :: l).
Proof.
  intros n x l. unfold insert_at.
  rewrite <- (firstn_skipn n l) at 3. symmetry. apply Permutation_middle.
Qed.
Lemma permute_perm {A} : forall (l : list A) seed, Permutation (permute seed l) l.
Proof.
  induction l as [|x l IH]; intros seed; cbn [permute]; [constructor|].
  eapply perm_trans; [apply insert_at_perm|]. constructor. apply IH.
Qed.
Lemma imap_get_perm {A} : forall (m m' : imap A) k, NoDup (map fst m) -> Permutation m m' ->
  imap_get m k = imap_get m' k.
Proof.
  intros m m' k Hd Hp.
  assert (Hd' : NoDup (map fst m')) by (eapply Permutation_NoDup; [apply Permutation_map; exact Hp|exact Hd]).
  destruct (imap_get m k) as [v|] eqn:E.
  - symmetry. apply imap_In_get; [exact Hd'|]. eapply Permutation_in; [exact Hp|].
    apply imap_get_In. exact E.
  - symmetry. apply imap_get_None. apply imap_get_None in E. intros H. apply E.
    eapply Permutation_in; [apply Permutation_map; symmetry; exact Hp|exact H].
Qed.
