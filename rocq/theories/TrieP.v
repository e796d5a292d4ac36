(** * The key trie of [Map.v], seen as a map from keys to values. *)
From Coq Require Import String.
From Coq Require Import List Arith NArith ZArith Bool Lia Permutation.
From Verif Require Import Str StrP Json Types Map SpecMap.
Import ListNotations.

Lemma imap_insert_in {A} : forall (m : imap A) k v k' v', In (k', v') (imap_insert m k v) ->
  k' = k /\ v' = v \/ In (k', v') m.
Proof.
  induction m as [|[k0 v0] m IH]; intros k v k' v' H; cbn [imap_insert] in H.
  - destruct H as [H|[]]. inversion H; auto.
  - destruct (str_eqb_spec k0 k) as [->|Hn]; destruct H as [H|H].
    + inversion H; auto.
    + right. right. exact H.
    + right. left. exact H.
    + apply IH in H. destruct H as [H|H]; [auto|right; right; exact H].
Qed.

(** ** Slash positions *)
Lemma get_next_nth : forall p n c i, nth_error (get_next_list_from n p c) i =
  match find_char (skipn i p) c with
  | Some (a, _) => Some (Some (n + i + length a))
  | None => if i <? length p then Some None else None
  end.
Proof.
  induction p as [|x p IH]; intros n c i.
  - destruct i; reflexivity.
  - cbn [get_next_list_from]. destruct i as [|i].
    + cbn [nth_error skipn find_char]. destruct (N.eqb x c).
      * rewrite !Nat.add_0_r. reflexivity.
      * specialize (IH (S n) c 0). cbn [skipn] in IH.
        destruct (find_char p c) as [[a b]|] eqn:E.
        -- destruct (get_next_list_from (S n) p c) as [|y t]; cbn in IH; [discriminate|].
           inversion IH. cbn [hd length]. f_equal. f_equal. lia.
        -- destruct p as [|y p]; [reflexivity|]. cbn [length] in IH. cbn [Nat.ltb Nat.leb] in IH.
           destruct (get_next_list_from (S n) (y :: p) c) as [|z t]; cbn in IH; [discriminate|].
           inversion IH. reflexivity.
    + cbn [nth_error skipn]. rewrite IH. destruct (find_char (skipn i p) c) as [[a b]|].
      * f_equal. f_equal. lia.
      * reflexivity.
Qed.
Lemma next_slash_eq : forall p c i, next_slash (get_next_list p c) i =
  match find_char (skipn i p) c with Some (a, _) => Some (i + length a) | None => None end.
Proof.
  intros p c i. unfold next_slash, get_next_list. rewrite get_next_nth.
  destruct (find_char (skipn i p) c) as [[a b]|]; [reflexivity|]. destruct (i <? length p); reflexivity.
Qed.
Lemma skipn_add {A} : forall a b (l : list A), skipn (a + b) l = skipn b (skipn a l).
Proof. induction a as [|a IH]; intros b [|x l]; cbn; auto. destruct b; reflexivity. Qed.
Lemma skipn_app_len {A} : forall (a b : list A), skipn (length a) (a ++ b) = b.
Proof. induction a; cbn; auto. Qed.
Lemma firstn_app_len {A} : forall (a b : list A), firstn (length a) (a ++ b) = a.
Proof. induction a; intros; cbn; f_equal; auto. Qed.

(** ** [walk] over segments *)
Definition leaf_set (node : ptn) (file : str) (target : mv) : ptn :=
  match file with
  | [] => set_folder node (Some target)
  | _ =>
      if ends_with_char file c_star then
        match t_wildcards node with
        | Some w => set_wildcards node (Some (imap_insert w (removelast file) target))
        | None => set_wildcards node (Some [(removelast file, target)])
        end
      else set_files node (imap_insert (t_files node) file target)
  end.
Definition kids (node : ptn) : list (str * ptn) := match t_children node with Some ch => ch | None => [] end.
Definition kid (node : ptn) (d : str) : ptn := match imap_get (kids node) d with Some n => n | None => ptn_default end.
Fixpoint walk_segs (segs : list str) (node : ptn) (target : mv) : ptn :=
  match segs with
  | [] => node
  | [file] => leaf_set node file target
  | d :: rest => set_children node (Some (imap_insert (kids node) d (walk_segs rest (kid node d) target)))
  end.
Lemma walk_segs_cons : forall d x r node target,
  walk_segs (d :: x :: r) node target =
  set_children node (Some (imap_insert (kids node) d (walk_segs (x :: r) (kid node d) target))).
Proof. reflexivity. Qed.
Lemma imap_insert_twice {A} : forall (m : imap A) k a b, imap_insert (imap_insert m k a) k b = imap_insert m k b.
Proof.
  induction m as [|[k0 v0] m IH]; intros k a b; cbn [imap_insert].
  - rewrite str_eqb_refl. reflexivity.
  - destruct (str_eqb k0 k) eqn:E; cbn [imap_insert]; rewrite E; [reflexivity|]. rewrite IH. reflexivity.
Qed.
Lemma walk_loop_segs : forall fuel p last node target, length (skipn last p) < fuel ->
  walk_loop fuel p (get_next_list p c_slash) last node target =
  PRet (walk_segs (split_on c_slash (skipn last p)) node target).
Proof.
  induction fuel as [|f IH]; intros p last node target Hf; [lia|].
  cbn [walk_loop]. rewrite next_slash_eq. destruct (find_char (skipn last p) c_slash) as [[a b]|] eqn:E.
  - apply find_char_some in E. destruct E as [E Hn].
    assert (Hs : char_slice p last (last + length a) = a).
    { unfold char_slice. replace (last + length a - last) with (length a) by lia. rewrite E. apply firstn_app_len. }
    rewrite Hs.
    assert (Hsk : skipn (last + length a + 1) p = b).
    { replace (last + length a + 1) with (last + (length a + 1)) by lia. rewrite skipn_add, E.
      rewrite skipn_add, skipn_app_len. reflexivity. }
    assert (Hlen : length b < f).
    { rewrite E in Hf. rewrite app_length in Hf. cbn in Hf. lia. }
    rewrite E, split_on_app by exact Hn. destruct (split_on_cons_ne c_slash b) as [h [t Es]].
    rewrite Es, walk_segs_cons, <- Es.
    unfold kids, kid. unfold kids. destruct (t_children node) as [ch|] eqn:Ec.
    + destruct (imap_get ch a) as [sub|] eqn:Eg.
      * rewrite Eg, IH by (rewrite Hsk; exact Hlen). rewrite Hsk. reflexivity.
      * rewrite imap_get_insert_eq, IH by (rewrite Hsk; exact Hlen). rewrite Hsk. cbn [pbind].
        rewrite imap_insert_twice. reflexivity.
    + cbn [imap_get]. rewrite str_eqb_refl, IH by (rewrite Hsk; exact Hlen). rewrite Hsk. cbn [pbind imap_insert].
      rewrite str_eqb_refl. reflexivity.
  - apply find_char_none in E. rewrite split_on_nosep by exact E. cbn [walk_segs].
    unfold walk_leaf, leaf_set. destruct (Nat.leb_spec (length p) last) as [Hl|Hl].
    + rewrite skipn_all2 by exact Hl. reflexivity.
    + destruct (skipn last p) as [|x s] eqn:Ex; [|reflexivity].
      assert (length (skipn last p) = length p - last) by apply skipn_length. rewrite Ex in H. cbn in H. lia.
Qed.
Lemma walk_segs_eq : forall root p v, walk root p v = PRet (walk_segs (split_on c_slash p) root v).
Proof.
  intros root p v. unfold walk. destruct p as [|c p]; [reflexivity|].
  rewrite walk_loop_segs by (cbn; lia). reflexivity.
Qed.

(** ** Reading the trie *)
Definition wilds (node : ptn) : list (str * mv) := match t_wildcards node with Some w => w | None => [] end.
Definition leaf_get (node : ptn) (file : str) : option mv :=
  match file with
  | [] => t_folder node
  | _ => if ends_with_char file c_star then imap_get (wilds node) (removelast file) else imap_get (t_files node) file
  end.
Fixpoint tget (node : ptn) (segs : list str) : option mv :=
  match segs with
  | [] => None
  | [file] => leaf_get node file
  | d :: rest => match imap_get (kids node) d with Some n => tget n rest | None => None end
  end.
Lemma tget_cons : forall node d x r, tget node (d :: x :: r) =
  match imap_get (kids node) d with Some n => tget n (x :: r) | None => None end.
Proof. reflexivity. Qed.
Lemma tget_default : forall segs, tget ptn_default segs = None.
Proof.
  intros [|f [|x r]]; [reflexivity| |reflexivity]. destruct f as [|c f]; [reflexivity|].
  cbn [tget]. unfold leaf_get. destruct (ends_with_char (c :: f) c_star); reflexivity.
Qed.
Lemma star_split : forall f, ends_with_char f c_star = true -> f = removelast f ++ [c_star].
Proof.
  intros f H. apply ends_with_char_spec in H. destruct H as [r ->]. rewrite removelast_last. reflexivity.
Qed.
Lemma leaf_get_set : forall node file v file', leaf_get (leaf_set node file v) file' =
  if str_eqb file file' then Some v else leaf_get node file'.
Proof.
  intros node file v file'. unfold leaf_set. destruct file as [|c f].
  - destruct file' as [|c' f']; cbn [str_eqb]; reflexivity.
  - destruct (ends_with_char (c :: f) c_star) eqn:Es.
    + assert (G : leaf_get (set_wildcards node (Some (imap_insert (wilds node) (removelast (c :: f)) v))) file' =
         (if str_eqb (c :: f) file' then Some v else leaf_get node file')).
      { destruct file' as [|c' f']; [reflexivity|]. unfold leaf_get.
        destruct (ends_with_char (c' :: f') c_star) eqn:Es'.
        - unfold wilds at 1. cbn [t_wildcards set_wildcards].
          destruct (str_eqb_spec (c :: f) (c' :: f')) as [->|Hn].
          + apply imap_get_insert_eq.
          + apply imap_get_insert_ne. intros E. apply Hn.
            rewrite (star_split _ Es), (star_split _ Es'), E. reflexivity.
        - destruct (str_eqb_spec (c :: f) (c' :: f')) as [E|Hn]; [congruence|reflexivity]. }
      unfold wilds in G. destruct (t_wildcards node); exact G.
    + destruct file' as [|c' f']; [reflexivity|]. unfold leaf_get. cbn [t_files set_files].
      destruct (ends_with_char (c' :: f') c_star) eqn:Es'.
      * destruct (str_eqb_spec (c :: f) (c' :: f')) as [E|Hn]; [congruence|reflexivity].
      * destruct (str_eqb_spec (c :: f) (c' :: f')) as [->|Hn].
        -- apply imap_get_insert_eq.
        -- apply imap_get_insert_ne. exact Hn.
Qed.
Lemma kids_leaf_set : forall node file v, kids (leaf_set node file v) = kids node.
Proof.
  intros node file v. unfold leaf_set. destruct file; [reflexivity|]. destruct (ends_with_char _ _).
  - destruct (t_wildcards node); reflexivity.
  - reflexivity.
Qed.
Lemma list_str_dec : forall a b : list str, {a = b} + {a <> b}.
Proof. apply list_eq_dec, str_eq_dec. Qed.
Lemma tget_walk : forall segs node v segs', segs <> [] -> segs' <> [] ->
  tget (walk_segs segs node v) segs' = if list_str_dec segs segs' then Some v else tget node segs'.
Proof.
  induction segs as [|d segs IH]; intros node v segs' H1 H2; [contradiction|].
  destruct segs as [|x segs].
  - cbn [walk_segs]. destruct segs' as [|d' [|x' r']]; [contradiction| |].
    + cbn [tget]. rewrite leaf_get_set. destruct (str_eqb_spec d d') as [->|Hn];
        destruct (list_str_dec _ _) as [E|E]; congruence.
    + rewrite !tget_cons, kids_leaf_set. destruct (list_str_dec _ _) as [E|E]; [discriminate|reflexivity].
  - rewrite walk_segs_cons. destruct segs' as [|d' [|x' r']]; [contradiction| |].
    + destruct (list_str_dec _ _) as [E|E]; [discriminate|]. reflexivity.
    + rewrite !tget_cons. unfold kids at 1. cbn [t_children set_children].
      destruct (str_eq_dec d d') as [->|Hn].
      * rewrite imap_get_insert_eq, IH by discriminate. unfold kid.
        destruct (list_str_dec (x :: segs) (x' :: r')) as [E|E];
          destruct (list_str_dec (d' :: x :: segs) (d' :: x' :: r')) as [E'|E']; try congruence.
        destruct (imap_get (kids node) d'); [reflexivity|]. apply tget_default.
      * rewrite imap_get_insert_ne by exact Hn.
        destruct (list_str_dec _ _) as [E|E]; [congruence|reflexivity].
Qed.
(** ** Well-formed tries *)
Inductive trie_ok (P : mv -> Prop) : ptn -> Prop :=
| TrieOk : forall node,
    NoDup (map fst (wilds node)) ->
    (forall k v, In (k, v) (t_files node) -> ends_with_char k c_star = false /\ ~ In c_slash k) ->
    (forall k n, In (k, n) (kids node) -> trie_ok P n) ->
    (forall v, t_folder node = Some v -> P v) ->
    (forall k v, In (k, v) (wilds node) -> P v) ->
    (forall k v, In (k, v) (t_files node) -> P v) ->
    trie_ok P node.
Lemma trie_default : forall P, trie_ok P ptn_default.
Proof. intros P. constructor; cbn; try contradiction; try discriminate. constructor. Qed.
Lemma leaf_set_ok : forall P node file v, trie_ok P node -> P v -> ~ In c_slash file -> trie_ok P (leaf_set node file v).
Proof.
  intros P node file v H Hv Hs. inversion H as [n H1 H2 H3 H4 H5 H6]; subst. unfold leaf_set.
  destruct file as [|c f].
  - constructor; auto. cbn. intros w E. inversion E; subst. exact Hv.
  - destruct (ends_with_char (c :: f) c_star) eqn:Es.
    + assert (G : trie_ok P (set_wildcards node (Some (imap_insert (wilds node) (removelast (c :: f)) v)))).
      { constructor; auto.
        - apply imap_insert_nodup. exact H1.
        - intros k w Hin. apply imap_insert_in in Hin. destruct Hin as [[_ ->]|Hin]; [exact Hv|eapply H5, Hin]. }
      unfold wilds in G. destruct (t_wildcards node); exact G.
    + constructor; auto; cbn [t_files set_files]; intros k w Hin; apply imap_insert_in in Hin;
        destruct Hin as [[-> ->]|Hin]; auto; eauto.
Qed.
Lemma kid_ok : forall P node d, trie_ok P node -> trie_ok P (kid node d).
Proof.
  intros P node d H. inversion H as [n H1 H2 H3 H4 H5 H6]; subst. unfold kid.
  destruct (imap_get (kids node) d) as [c|] eqn:E; [|apply trie_default].
  apply imap_get_In in E. eapply H3, E.
Qed.
Lemma walk_segs_ok : forall P segs node v, trie_ok P node -> P v -> Forall (fun s => ~ In c_slash s) segs ->
  trie_ok P (walk_segs segs node v).
Proof.
  intros P. induction segs as [|d segs IH]; intros node v H Hv Hs; [exact H|].
  inversion Hs as [|? ? Hd Hr]; subst. destruct segs as [|x segs].
  - apply leaf_set_ok; assumption.
  - rewrite walk_segs_cons. inversion H as [n H1 H2 H3 H4 H5 H6]; subst. constructor; auto.
    intros k n Hin. unfold kids in Hin at 1. cbn [t_children set_children] in Hin. apply imap_insert_in in Hin.
    destruct Hin as [[_ ->]|Hin]; [|eapply H3, Hin].
    apply IH; auto. apply kid_ok, H.
Qed.
Lemma split_noslash : forall s, Forall (fun x => ~ In c_slash x) (split_on c_slash s).
Proof. intros s. apply Forall_forall. intros x H. eapply split_on_no_in, H. Qed.
Lemma walk_ok : forall P root p v, trie_ok P root -> P v -> trie_ok P (walk_segs (split_on c_slash p) root v).
Proof. intros. apply walk_segs_ok; auto. apply split_noslash. Qed.

(** The value for ".": not reachable through [walk]. *)
Definition tdot (root : ptn) : option mv := imap_get (t_files root) [].
Lemma tdot_walk : forall segs node v, tdot (walk_segs segs node v) = tdot node.
Proof.
  intros segs node v. destruct segs as [|d [|x r]]; [reflexivity| |reflexivity].
  cbn [walk_segs]. unfold leaf_set. destruct d as [|c d]; [reflexivity|]. destruct (ends_with_char _ _).
  - destruct (t_wildcards node); reflexivity.
  - unfold tdot. cbn [t_files set_files]. apply imap_get_insert_ne. discriminate.
Qed.

(** The value stored for a key, as written after "./" or "#". *)
Definition stored (root : ptn) (k : str) : option mv := tget root (split_on c_slash k).
Lemma split_inj : forall a b, split_on c_slash a = split_on c_slash b -> a = b.
Proof. intros a b H. rewrite <- (join_split c_slash a), <- (join_split c_slash b), H. reflexivity. Qed.
Lemma split_ne : forall s, split_on c_slash s <> [].
Proof. intros s H. destruct (split_on_cons_ne c_slash s) as [h [t E]]. congruence. Qed.
Lemma stored_walk : forall k root v k', stored (walk_segs (split_on c_slash k) root v) k' =
  if str_eqb k k' then Some v else stored root k'.
Proof.
  intros k root v k'. unfold stored. rewrite tget_walk by apply split_ne.
  destruct (str_eqb_spec k k') as [->|Hn]; destruct (list_str_dec _ _) as [E|E]; auto; [congruence|].
  exfalso. apply Hn, split_inj, E.
Qed.
