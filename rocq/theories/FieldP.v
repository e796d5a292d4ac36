(** * The whole exports/imports field. *)
From Coq Require Import String.
From Coq Require Import List Arith NArith ZArith Bool Lia.
From Verif Require Import Str StrP Json Types Map SpecMap SpecField MapP TrieP FindP SelectP.
Import ListNotations.

(** ** [from_json] gives hereditarily distinct keys *)
Section JsonInd.
Variable P : json -> Prop.
Hypothesis H0 : P JNull.
Hypothesis H1 : forall b, P (JBool b).
Hypothesis H2 : forall s, P (JNum s).
Hypothesis H3 : forall s, P (JStr s).
Hypothesis H4 : forall l, Forall P l -> P (JArr l).
Hypothesis H5 : forall l, Forall (fun kv => P (snd kv)) l -> P (JObj l).
Fixpoint json_ind2 (j : json) : P j :=
  match j with
  | JNull => H0 | JBool b => H1 b | JNum s => H2 s | JStr s => H3 s
  | JArr l => H4 l ((fix go l : Forall P l := match l with [] => Forall_nil _ | x :: r => Forall_cons _ (json_ind2 x) (go r) end) l)
  | JObj l => H5 l ((fix go (l : list (str * json)) : Forall (fun kv => P (snd kv)) l :=
       match l with [] => Forall_nil _ | kv :: r => Forall_cons kv (json_ind2 (snd kv)) (go r) end) l)
  end.
End JsonInd.

Definition from_arr := (fix arr (l : list json) : pcomp (list am) :=
                   match l with
                   | [] => PRet []
                   | x :: r =>
                       plet v := from_json x in
                       match v with
                       | MDirect s => plet t := arr r in PRet (ADirect s :: t)
                       | MCond m => plet t := arr r in PRet (ACond m :: t)
                       | MArray _ => PPanic (lit "Array mapping is not allowed nested in exports field")
                       end
                   end).
Definition from_obj := (fix obj (l : list (str * json)) (acc : cmap) : pcomp cmap :=
                   match l with
                   | [] => PRet acc
                   | (k, x) :: r => plet v := from_json x in obj r (imap_insert acc k v)
                   end).
Lemma from_json_arr : forall l, from_json (JArr l) = plet a := from_arr l in PRet (MArray a).
Proof. reflexivity. Qed.
Lemma from_json_obj : forall l, from_json (JObj l) = plet m := from_obj l [] in PRet (MCond m).
Proof. reflexivity. Qed.
Lemma pbind_ret {A B} : forall (p : pcomp A) (f : A -> pcomp B) b, pbind p f = PRet b -> exists a, p = PRet a /\ f a = PRet b.
Proof. intros p f b H. destruct p; try discriminate; eauto. Qed.

(** A property of values that holds for everything [from_json] produces. *)
Section FromJson.
Variable P : mv -> Prop.
Variable ok : json -> Prop.
Hypothesis ok_arr : forall l x, ok (JArr l) -> In x l -> ok x.
Hypothesis ok_obj : forall l k x, ok (JObj l) -> In (k, x) l -> ok x.
Hypothesis PD : forall s, P (MDirect s).
Hypothesis PA : forall a, (forall m, In (ACond m) a -> P (MCond m)) -> P (MArray a).
Hypothesis PO : forall l m, ok (JObj l) -> NoDup (map fst m) -> (forall k v, In (k, v) m -> P v /\ In k (map fst l)) -> P (MCond m).
Lemma from_json_all : forall j v, ok j -> from_json j = PRet v -> P v.
Proof.
  induction j as [|b|s|s|l IH|l IH] using json_ind2; intros v Hok H; try discriminate.
  - inversion H; subst. apply PD.
  - rewrite from_json_arr in H. apply pbind_ret in H. destruct H as [a [H E]]. inversion E; subst v. clear E.
    apply PA. assert (Hall : Forall (fun x => ok x) l) by (apply Forall_forall; intros x Hx; eapply ok_arr; eassumption).
    clear Hok. revert a H. induction l as [|x l IHl]; intros a H; cbn [from_arr] in H.
    + inversion H; subst. intros m [].
    + apply pbind_ret in H. destruct H as [v [Hv H]]. inversion IH; subst. inversion Hall; subst.
      destruct v as [s|m|a']; [| |discriminate]; apply pbind_ret in H; destruct H as [t [Ht H]]; inversion H; subst;
        intros m' [Hm|Hm]; try discriminate.
      * eapply IHl; eassumption.
      * inversion Hm; subst. auto.
      * eapply IHl; eassumption.
  - rewrite from_json_obj in H. apply pbind_ret in H. destruct H as [m [H E]]. inversion E; subst v. clear E.
    apply (PO l); [exact Hok| |].
    + assert (G : forall l acc m, from_obj l acc = PRet m -> NoDup (map fst acc) -> NoDup (map fst m)).
      { clear. induction l as [|[k x] l IHl]; intros acc m H Ha; cbn [from_obj] in H; [inversion H; subst; exact Ha|].
        apply pbind_ret in H. destruct H as [v [_ H]]. eapply IHl; [exact H|]. apply imap_insert_nodup, Ha. }
      eapply G; [exact H|constructor].
    + assert (Hall : Forall (fun kv => ok (snd kv)) l) by (apply Forall_forall; intros [k x] Hx; eapply ok_obj; eassumption).
      clear Hok. assert (G : forall l acc m, Forall (fun kv : str * json => forall v, ok (snd kv) -> from_json (snd kv) = PRet v -> P v) l ->
         Forall (fun kv => ok (snd kv)) l -> from_obj l acc = PRet m ->
         forall k v, In (k, v) m -> P v /\ In k (map fst l) \/ In (k, v) acc).
      { clear - P. induction l as [|[k x] l IHl]; intros acc m HI Hok H k' v' Hin; cbn [from_obj] in H; [inversion H; subst; auto|].
        apply pbind_ret in H. destruct H as [v [Hv H]]. inversion HI; subst. inversion Hok; subst. cbn [snd] in *.
        destruct (IHl _ _ H3 H5 H _ _ Hin) as [[G1 G2]|G]; [left; split; [exact G1|right; exact G2]|].
        apply imap_insert_in in G. destruct G as [[-> ->]|G]; [left; split; [auto|left; reflexivity]|auto]. }
      intros k v Hin. destruct (G l [] m IH Hall H k v Hin) as [G1|[]]. exact G1.
Qed.
End FromJson.
Lemma from_json_distinct : forall j v, from_json j = PRet v -> distinct v.
Proof.
  intros j v. apply (from_json_all distinct (fun _ => True)); auto.
  - intros s. constructor.
  - intros a H. constructor. exact H.
  - intros l m _ Hnd Hm. constructor; [exact Hnd|]. intros k w Hin. apply Hm in Hin. apply Hin.
Qed.

(** ** [mapping] *)
Lemma msize_in : forall m k v, In (k, v) m -> S (mv_size v) <= msize m.
Proof.
  induction m as [|[k' v'] m IH]; intros k v H; [destruct H|]. cbn [msize]. destruct H as [H|H].
  - inversion H; subst. lia.
  - apply IH in H. lia.
Qed.
Lemma choose_some : forall names m r, choose names m r -> forall v, r = Ok (Some v) ->
  distinct (MCond m) -> is_leaf v /\ mv_size v < mv_size (MCond m) /\ distinct v.
Proof.
  induction 1 as [|v rest Hr|k v rest r Hk H IH|k v rest He Hd Hl|k inner rest r He Hd H IH Hn|k inner rest r He Hd H1 IH1 H2 IH2];
    intros w E Hds; try discriminate; rewrite ?mv_size_cond in *; cbn [msize].
  - destruct (distinct_cond _ Hds) as [Hnd Hin]. destruct (IH w E) as [A1 [A2 A3]].
    + constructor; [inversion Hnd; assumption|]. intros k' v' H'. apply (Hin k'). right. exact H'.
    + repeat split; auto. lia.
  - inversion E; subst. destruct (distinct_cond _ Hds) as [Hnd Hin]. repeat split; auto; [lia|]. apply (Hin k). left. reflexivity.
  - destruct (distinct_cond _ Hds) as [Hnd Hin]. destruct (IH w E) as [A1 [A2 A3]]; [apply (Hin k); left; reflexivity|].
    rewrite mv_size_cond in *. repeat split; auto. lia.
  - destruct (distinct_cond _ Hds) as [Hnd Hin]. destruct (IH2 w E) as [A1 [A2 A3]].
    + constructor; [inversion Hnd; assumption|]. intros k' v' H'. apply (Hin k'). right. exact H'.
    + repeat split; auto. lia.
Qed.
(** Results in order, stopping at the first error. *)
Fixpoint seq_results {A} (l : list (result A)) : result (list A) :=
  match l with
  | [] => Ok []
  | Err e :: _ => Err e
  | Ok a :: r => match seq_results r with Ok t => Ok (a :: t) | Err e => Err e end
  end.
Lemma seq_results_app {A} : forall (a b : list (result A)), seq_results (a ++ b) =
  match seq_results a with
  | Err e => Err e
  | Ok x => match seq_results b with Ok y => Ok (x ++ y) | Err e => Err e end
  end.
Proof.
  induction a as [|[x|e] a IH]; intros b; cbn [app seq_results].
  - destruct (seq_results b); reflexivity.
  - rewrite IH. destruct (seq_results a); [|reflexivity]. destruct (seq_results b); reflexivity.
  - reflexivity.
Qed.
Definition map_array (f : nat) fk remaining subpath names :=
  (fix go (l : list am) (acc : list str) : pcomp (result (list str)) :=
             match l with
             | [] => PRet (Ok acc)
             | ADirect target :: r =>
                 match target_mapping fk remaining subpath target with
                 | Ok s => go r (acc ++ [s])
                 | Err e => PRet (Err e)
                 end
             | ACond cm :: r =>
                 plet x := conditional_mapping cm names in
                 match x with
                 | Err e => PRet (Err e)
                 | Ok None => go r acc
                 | Ok (Some v) =>
                     plet y := mapping f fk remaining subpath v names in
                     match y with
                     | Err e => PRet (Err e)
                     | Ok inner => go r (acc ++ inner)
                     end
                 end
             end).
Lemma mapping_array : forall f fk rm sp a names, mapping (S f) fk rm sp (MArray a) names = map_array f fk rm sp names a [].
Proof. reflexivity. Qed.
Fixpoint asize (l : list am) : nat :=
      match l with [] => 0 | x :: r => S (am_size x + asize r) end.
Lemma mv_size_array : forall a, mv_size (MArray a) = S (asize a).
Proof. reflexivity. Qed.
Lemma am_size_cond : forall m, am_size (ACond m) = mv_size (MCond m).
Proof. reflexivity. Qed.
Definition mapped (tm : str -> result str) (t : result (list str)) (r : result (list str)) : Prop :=
  match t with
  | Ok l => r = seq_results (map tm l)
  | Err _ => exists e, r = Err e
  end.
Lemma mapping_targets : forall fuel v fk rm sp names, mv_size v < fuel -> distinct v ->
  exists t r, targets names v t /\ mapping fuel fk rm sp v names = PRet r /\ mapped (target_mapping fk rm sp) t r.
Proof.
  induction fuel as [|f IH]; intros v fk rm sp names Hf Hd; [lia|].
  assert (Hcond : forall m, mv_size (MCond m) <= f -> distinct (MCond m) ->
    exists x, conditional_mapping m names = PRet x /\ choose names m x /\
    match x with
    | Err e => targets names (MCond m) (Err e)
    | Ok None => targets names (MCond m) (Ok [])
    | Ok (Some w) => exists t r, targets names (MCond m) t /\ mapping f fk rm sp w names = PRet r /\ mapped (target_mapping fk rm sp) t r
    end).
  { intros m Hm Hdm. destruct (conditional_mapping_ok m names Hdm) as [x [H1 H2]]. exists x. repeat split; auto.
    destruct x as [[w|]|e].
    - destruct (choose_some _ _ _ H2 w eq_refl Hdm) as [A1 [A2 A3]].
      destruct (IH w fk rm sp names) as [t [r [B1 [B2 B3]]]]; [lia|exact A3|].
      exists t, r. split; [|split]; auto. eapply TgCond; eassumption.
    - apply TgCondNone, H2.
    - apply TgCondErr, H2. }
  destruct v as [s|m|a].
  - exists (Ok [s]). cbn [mapping mapped map seq_results].
    destruct (target_mapping fk rm sp s); eexists; (split; [constructor|]); split; reflexivity.
  - destruct (Hcond m) as [x [H1 [H2 H3]]]; [lia|exact Hd|]. cbn [mapping]. rewrite H1. cbn [pbind].
    destruct x as [[w|]|e].
    + exact H3.
    + exists (Ok []). eexists. split; [exact H3|split; [reflexivity|try reflexivity]].
    + exists (Err e). eexists. split; [exact H3|split; [reflexivity|try reflexivity]]. exists e. reflexivity.
  - rewrite mapping_array. rewrite mv_size_array in Hf.
    assert (G : forall a acc, asize a < f -> (forall m, In (ACond m) a -> distinct (MCond m)) ->
       exists t r, array_targets names a t /\ map_array f fk rm sp names a acc = PRet r /\
         match t with
         | Ok l => r = match seq_results (map (target_mapping fk rm sp) l) with Ok x => Ok (acc ++ x) | Err e => Err e end
         | Err _ => exists e, r = Err e
         end).
    { clear a Hf Hd. induction a as [|[s|m] a IHa]; intros acc Ha Hda; cbn [map_array].
      - exists (Ok []). eexists. split; [constructor|split; [reflexivity|try reflexivity]]. cbn. rewrite app_nil_r. reflexivity.
      - cbn [asize] in Ha. assert (Hda' : forall m, In (ACond m) a -> distinct (MCond m)) by (intros m Hm; apply Hda; right; exact Hm).
        destruct (target_mapping fk rm sp s) as [x|e] eqn:Et.
        + fold (map_array f fk rm sp names). destruct (IHa (acc ++ [x])) as [t [r [B1 [B2 B3]]]]; [lia|exact Hda'|].
          destruct t as [l|e].
          * exists (Ok (s :: l)), r. split; [constructor; exact B1|split; [exact B2|]]. rewrite B3. cbn. rewrite Et.
            destruct (seq_results _); [|reflexivity]. rewrite <- app_assoc. reflexivity.
          * exists (Err e), r. split; [apply AtErrLater, B1|split; [exact B2|exact B3]].
        + destruct (IHa acc) as [t [r [B1 [B2 B3]]]]; [lia|exact Hda'|].
          destruct t as [l|e'].
          * exists (Ok (s :: l)), (Err e). split; [constructor; exact B1|split; [reflexivity|try reflexivity]]. cbn. rewrite Et. reflexivity.
          * exists (Err e'), (Err e). split; [apply AtErrLater, B1|split; [reflexivity|eauto]].
      - cbn [asize] in Ha. rewrite am_size_cond in Ha.
        assert (Hda' : forall m, In (ACond m) a -> distinct (MCond m)) by (intros m' Hm; apply Hda; right; exact Hm).
        fold (map_array f fk rm sp names).
        destruct (Hcond m) as [x [H1 [H2 H3]]]; [lia|apply Hda; left; reflexivity|]. rewrite H1. cbn [pbind].
        destruct x as [[w|]|e].
        + destruct H3 as [t1 [r1 [C1 [C2 C3]]]]. rewrite C2. cbn [pbind].
          destruct t1 as [l1|e1]; cbn [mapped] in C3.
          * subst r1. destruct (seq_results (map (target_mapping fk rm sp) l1)) as [x1|e1] eqn:E1.
            -- destruct (IHa (acc ++ x1)) as [t [r [B1 [B2 B3]]]]; [lia|exact Hda'|]. destruct t as [l|e].
               ++ exists (Ok (l1 ++ l)), r. split; [apply AtCond; assumption|split; [exact B2|]].
                  rewrite B3, map_app, seq_results_app, E1. destruct (seq_results (map (target_mapping fk rm sp) l)); [|reflexivity]. rewrite app_assoc. reflexivity.
               ++ exists (Err e), r. split; [apply AtErrLater, B1|split; [exact B2|exact B3]].
            -- destruct (IHa acc) as [t [r [B1 [B2 B3]]]]; [lia|exact Hda'|]. destruct t as [l|e].
               ++ exists (Ok (l1 ++ l)), (Err e1). split; [apply AtCond; assumption|split; [reflexivity|try reflexivity]].
                  rewrite map_app, seq_results_app, E1. reflexivity.
               ++ exists (Err e), (Err e1). split; [apply AtErrLater, B1|split; [reflexivity|eauto]].
          * destruct C3 as [e ->]. exists (Err e1), (Err e). split; [apply AtErrHere, C1|split; [reflexivity|eauto]].
        + destruct (IHa acc) as [t [r [B1 [B2 B3]]]]; [lia|exact Hda'|]. destruct t as [l|e].
          * exists (Ok ([] ++ l)), r. split; [apply AtCond; assumption|split; [exact B2|]]. exact B3.
          * exists (Err e), r. split; [apply AtErrLater, B1|split; [exact B2|exact B3]].
        + exists (Err e), (Err e). split; [apply AtErrHere, H3|split; [reflexivity|eauto]]. }
    inversion Hd as [| |? Hda]; subst.
    destruct (G a [] ltac:(lia) Hda) as [t [r [B1 [B2 B3]]]]. exists t, r. split; [constructor; exact B1|split; [exact B2|]].
    destruct t as [l|e]; cbn [mapped]; [|exact B3]. rewrite B3. destruct (seq_results _); reflexivity.
Qed.

(** ** Keys *)
Lemma trie_setdot : forall P root v, trie_ok P root -> P v -> trie_ok P (set_files root (imap_insert (t_files root) [] v)).
Proof.
  intros P root v H Hv. inversion H as [n H1 H2 H3 H4 H5 H6]; subst. constructor; auto; cbn [t_files set_files];
    intros k w Hin; apply imap_insert_in in Hin; destruct Hin as [[-> ->]|Hin]; auto; eauto.
Qed.
Lemma stored_setdot : forall root v s, stored (set_files root (imap_insert (t_files root) [] v)) s = stored root s.
Proof.
  intros root v s. unfold stored. destruct (split_on c_slash s) as [|f [|x r]]; [reflexivity| |reflexivity].
  cbn [tget]. unfold leaf_get. destruct f as [|c f]; [reflexivity|]. cbn [t_files set_files].
  destruct (ends_with_char (c :: f) c_star); [reflexivity|]. apply imap_get_insert_ne. discriminate.
Qed.
Lemma imap_get_skip {A} : forall (m : imap A) k v k', k <> k' -> imap_get ((k, v) :: m) k' = imap_get m k'.
Proof. intros m k v k' H. cbn [imap_get]. destruct (str_eqb_spec k k'); [contradiction|reflexivity]. Qed.
Definition one_byte (k : str) : bool := Nat.eqb (blen k) 1.
Lemma one_byte_not : forall s, one_byte (lit "./" ++ s) = false.
Proof. intros s. unfold one_byte. rewrite blen_app. reflexivity. Qed.
Lemma app_skip : forall (pre : str) k, starts_with k pre = true -> k = pre ++ skipn (length pre) k.
Proof. intros pre k H. apply starts_with_skipn in H. exact H. Qed.
Lemma exports_keys_spec : forall P m root root', NoDup (map fst m) -> trie_ok P root -> (forall k v, In (k, v) m -> P v) ->
  exports_keys m root = PRet (Ok root') ->
  trie_ok P root' /\
  (forall s, stored root' s = match imap_get m (lit "./" ++ s) with Some v => Some v | None => stored root s end) /\
  (forall k v, In (k, v) m -> one_byte k = true \/ exists s, k = lit "./" ++ s) /\
  ((forall k, In k (map fst m) -> one_byte k = true -> k = lit ".") ->
     tdot root' = match imap_get m (lit ".") with Some v => Some v | None => tdot root end).
Proof.
  intros P. induction m as [|[key value] m IH]; intros root root' Hnd Hok HP H; cbn [exports_keys] in H.
  - inversion H; subst. split; [exact Hok|]. split; [intros s; reflexivity|]. split; [intros k v []|]. reflexivity.
  - cbn [map fst] in Hnd. inversion Hnd as [|? ? Hni Hnd']; subst.
    assert (HP' : forall k v, In (k, v) m -> P v) by (intros k v Hin; apply (HP k); right; exact Hin).
    assert (Hget : forall k, k = key -> imap_get m k = None) by (intros k ->; apply imap_get_None; exact Hni).
    destruct (Nat.eqb (blen key) 1) eqn:E1.
    + destruct (IH _ _ Hnd' (trie_setdot P root value Hok (HP key value (or_introl eq_refl))) HP' H) as [A1 [A2 [A3 A4]]].
      split; [exact A1|]. split; [|split].
      * intros s. rewrite A2, stored_setdot. rewrite imap_get_skip; [reflexivity|].
        intros ->. pose proof (one_byte_not s) as Ho. unfold one_byte in Ho. congruence.
      * intros k v [Hin|Hin]; [inversion Hin; subst; left; exact E1|]. eapply A3, Hin.
      * intros Hone. rewrite A4 by (intros k Hk; apply Hone; right; exact Hk).
        assert (key = lit ".") by (apply Hone; [left; reflexivity|exact E1]). subst key.
        rewrite Hget by reflexivity. cbn [imap_get]. rewrite str_eqb_refl. unfold tdot. cbn [t_files set_files].
        apply imap_get_insert_eq.
    + destruct (starts_with key (lit "./")) eqn:E2; cbn [negb] in H; [|discriminate].
      pose proof (app_skip _ _ E2) as Ek. change (length (lit "./")) with 2 in Ek.
      rewrite walk_segs_eq in H. cbn [pbind] in H.
      destruct (IH _ _ Hnd' (walk_ok P root (skipn 2 key) value Hok (HP key value (or_introl eq_refl))) HP' H) as [A1 [A2 [A3 A4]]].
      split; [exact A1|]. split; [|split].
      * intros s. rewrite A2, stored_walk. destruct (str_eqb_spec (skipn 2 key) s) as [Es|Hn].
        -- rewrite Es in Ek. rewrite Hget by (symmetry; exact Ek). cbn [imap_get]. rewrite <- Ek, str_eqb_refl. reflexivity.
        -- rewrite imap_get_skip; [reflexivity|]. intros E. apply Hn. rewrite E. reflexivity.
      * intros k v [Hin|Hin]; [inversion Hin; subst; right; eauto|]. eapply A3, Hin.
      * intros Hone. rewrite A4 by (intros k Hk; apply Hone; right; exact Hk). rewrite tdot_walk.
        rewrite imap_get_skip; [reflexivity|]. intros E. subst key. discriminate.
Qed.
Lemma imports_keys_spec : forall P m root root', NoDup (map fst m) -> trie_ok P root -> (forall k v, In (k, v) m -> P v) ->
  imports_keys m root = PRet (Ok root') ->
  trie_ok P root' /\
  (forall s, stored root' s = match imap_get m (lit "#" ++ s) with Some v => Some v | None => stored root s end) /\
  (forall k v, In (k, v) m -> exists s, k = lit "#" ++ s /\ s <> [] /\ ~ exists r, s = lit "/" ++ r).
Proof.
  intros P. induction m as [|[key value] m IH]; intros root root' Hnd Hok HP H; cbn [imports_keys] in H.
  - inversion H; subst. split; [exact Hok|]. split; [intros s; reflexivity|]. intros k v [].
  - cbn [map fst] in Hnd. inversion Hnd as [|? ? Hni Hnd']; subst.
    assert (HP' : forall k v, In (k, v) m -> P v) by (intros k v Hin; apply (HP k); right; exact Hin).
    assert (Hget : forall k, k = key -> imap_get m k = None) by (intros k ->; apply imap_get_None; exact Hni).
    destruct (starts_with_char key c_hash) eqn:E1; cbn [negb] in H; [|discriminate].
    destruct (Nat.eqb_spec (blen key) 1) as [|E2]; [discriminate|].
    destruct (starts_with key (lit "#/")) eqn:E3; [discriminate|].
    apply starts_with_char_spec in E1. destruct E1 as [k0 ->]. cbn [skipn] in H.
    rewrite walk_segs_eq in H. cbn [pbind] in H.
    destruct (IH _ _ Hnd' (walk_ok P root k0 value Hok (HP _ value (or_introl eq_refl))) HP' H) as [A1 [A2 A3]].
    split; [exact A1|]. split.
    + intros s. rewrite A2, stored_walk. change (lit "#" ++ s) with (c_hash :: s).
      destruct (str_eqb_spec k0 s) as [->|Hn].
      * rewrite Hget by reflexivity. cbn [imap_get]. rewrite str_eqb_refl. reflexivity.
      * rewrite imap_get_skip; [reflexivity|]. congruence.
    + intros k v [Hin|Hin]; [|eapply A3, Hin]. inversion Hin; subst. exists k0. split; [reflexivity|]. split.
      * intros ->. apply E2. reflexivity.
      * intros [r ->]. apply starts_with_false in E3. apply E3. exists r. reflexivity.
Qed.
Lemma sub_entries_in : forall pre m s v, In (s, v) (sub_entries pre m) <-> In (pre ++ s, v) m.
Proof.
  intros pre m s v. unfold sub_entries. rewrite in_flat_map. split.
  - intros [[k w] [Hin H]]. cbn [fst snd] in H. destruct (starts_with k pre) eqn:E; [|destruct H].
    destruct H as [H|[]]. inversion H; subst. rewrite <- app_skip by exact E. exact Hin.
  - intros H. exists (pre ++ s, v). split; [exact H|]. cbn [fst snd]. rewrite starts_with_app. left.
    rewrite skipn_app_len. reflexivity.
Qed.
Lemma sub_entries_nodup : forall pre m, NoDup (map fst m) -> NoDup (map fst (sub_entries pre m)).
Proof.
  intros pre m H. induction m as [|[k v] m IH]; cbn; [constructor|]. cbn [map fst] in H. inversion H as [|? ? Hn Hd]; subst.
  specialize (IH Hd). destruct (starts_with k pre) eqn:E; [|exact IH]. cbn [app map fst]. constructor; [|exact IH].
  intros Hin. apply in_map_iff in Hin. destruct Hin as [[s w] [Es Hin]]. cbn [fst] in Es. subst s.
  apply sub_entries_in in Hin. rewrite <- app_skip in Hin by exact E. apply Hn. apply in_map_iff. exists (k, w). auto.
Qed.

(** ** [field_process] *)
Definition target_fn (fk : field) (sub : str) (p : pattern) (x : str) : str -> result str :=
  match p with
  | PStar _ => target_mapping fk (Some x) false
  | PFolder _ => target_mapping fk (Some x) true
  | PExact _ => target_mapping fk (remaining_of sub (Z.of_nat (length (seg_of sub)) + 1)%Z) false
  end.
Lemma assert_request_sub : forall fk sub, sub <> [] -> ends_with_char sub c_slash = false ->
  (fk = FImports -> ~ exists r, sub = lit "/" ++ r) ->
  assert_request fk (pre_of fk ++ sub) = Ok sub.
Proof.
  intros fk sub Hn He Hi. assert (He' : forall pre, ends_with_char (pre ++ sub) c_slash = false).
  { intros pre. destruct (exists_last Hn) as [w [y E]]. subst sub.
    destruct (ends_with_char (pre ++ w ++ [y]) c_slash) eqn:E; [|reflexivity]. apply ends_with_char_spec in E. destruct E as [r E].
    rewrite app_assoc in E. apply app_inj_tail in E. destruct E as [_ ->].
    assert (ends_with_char (w ++ [c_slash]) c_slash = true) by (apply ends_with_char_spec; eauto). congruence. }
  destruct fk; unfold assert_request, pre_of.
  - specialize (He' (lit "./")). rewrite He'.
    rewrite (starts_with_app (lit "./") sub). rewrite blen_app.
    change (blen (lit "./")) with 2. cbn [negb Nat.add Nat.eqb]. reflexivity.
  - specialize (He' (lit "#")). rewrite He'. rewrite blen_app. change (blen (lit "#")) with 1.
    assert (Hb : blen sub <> 0) by (intros E; apply Hn, blen_0, E).
    assert (Hs : starts_with (lit "#" ++ sub) (lit "#/") = false).
    { apply starts_with_false. intros [r E]. apply (Hi eq_refl). exists r.
      change (lit "#" ++ sub) with (c_hash :: sub) in E. change (lit "#/" ++ r) with (c_hash :: c_slash :: r) in E. inversion E. reflexivity. }
    rewrite Hs. destruct (Nat.eqb_spec (1 + blen sub) 1) as [E|_]; [lia|]. reflexivity.
Qed.
Lemma encodes_remaining : forall sub v p x m fk, leaves p sub x -> encodes sub (Some (v, p, x)) m ->
  exists i, m = Some (v, i) /\ forall t, target_mapping fk (remaining_of sub i) (i <? 0)%Z t = target_fn fk sub p x t.
Proof.
  intros sub v p x m fk Hl He. destruct p as [s|p|p]; cbn in He; subst m; eexists; (split; [reflexivity|]); intros t.
  - cbn [target_fn]. destruct (Z.ltb_spec (Z.of_nat (length (seg_of sub)) + 1) 0); [lia|]. reflexivity.
  - inversion Hl; subst. unfold remaining_of. rewrite app_length.
    destruct (Z.eqb_spec (Z.of_nat (length p)) (Z.of_nat (length p + length x) + 1)); [lia|].
    destruct (Z.ltb_spec (Z.of_nat (length p)) 0); [lia|]. rewrite Nat2Z.id, skipn_app_len. reflexivity.
  - inversion Hl; subst. unfold remaining_of. rewrite app_length.
    destruct (Z.eqb_spec (- Z.of_nat (length p) - 1) (Z.of_nat (length p + length x) + 1)); [lia|].
    destruct (Z.ltb_spec (- Z.of_nat (length p) - 1) 0); [|lia].
    replace (Z.to_nat (Z.abs (- Z.of_nat (length p) - 1) - 1)) with (length p) by lia. rewrite skipn_app_len. reflexivity.
Qed.
Lemma trie_weaken : forall (P Q : mv -> Prop) root, (forall v, P v -> Q v) -> trie_ok P root -> trie_ok Q root.
Proof.
  intros P Q root HPQ. revert root. fix IH 2. intros root H. destruct H as [node H1 H2 H3 H4 H5 H6].
  constructor; auto.
  - intros k n Hin. apply IH. eapply H3, Hin.
  - intros k v Hin. eapply HPQ, H5, Hin.
  - intros k v Hin. eapply HPQ, H6, Hin.
Qed.
Lemma seq_results_eq {A} : forall (f g : str -> result A) l, (forall t, f t = g t) -> seq_results (map f l) = seq_results (map g l).
Proof. intros f g l H. f_equal. apply map_ext. exact H. Qed.
Lemma field_process_selects : forall fk root entries sub o names,
  trie_ok distinct root -> (forall k v, In (k, v) entries <-> stored root k = Some v) -> NoDup (map fst entries) ->
  ascii_str sub -> sub <> [] -> ends_with_char sub c_slash = false -> (fk = FImports -> ~ exists r, sub = lit "/" ++ r) ->
  selects entries sub o ->
  match o with
  | None => field_process fk root (pre_of fk ++ sub) names = PRet (Ok [])
  | Some (v, p, x) => exists t r, targets names v t /\ field_process fk root (pre_of fk ++ sub) names = PRet r /\
      mapped (target_fn fk sub p x) t r
  end.
Proof.
  intros fk root entries sub o names Hok Hen Hnd Ha Hne He Hi Hsel.
  destruct (find_match_selects root sub entries (trie_weaken distinct _ root (fun _ _ => I) Hok) Ha Hne He Hen) as [o' [m [H1 [H2 H3]]]].
  pose proof (selects_det entries sub o o' Hnd Hsel H1) as E. subst o'.
  unfold field_process. rewrite assert_request_sub by assumption. rewrite H2. cbn [pbind].
  destruct o as [[[v p] x]|].
  - assert (Hl : leaves p sub x) by (inversion Hsel; subst; [constructor|assumption]).
    assert (Hd : distinct v).
    { assert (Hin : exists k, In (k, v) entries) by (inversion Hsel; subst; eauto). destruct Hin as [k Hin].
      apply Hen in Hin. clear - Hok Hin. unfold stored in Hin. revert root Hok Hin. generalize (split_on c_slash k).
      induction l as [|d l IHl]; intros root Hok Hin; [discriminate|]. inversion Hok as [? K1 K2 K3 K4 K5 K6]; subst.
      destruct l as [|y l].
      - cbn [tget] in Hin. unfold leaf_get in Hin. destruct d; [auto|]. destruct (ends_with_char _ _); apply imap_get_In in Hin; eauto.
      - rewrite tget_cons in Hin. destruct (imap_get (kids root) d) as [n|] eqn:En; [|discriminate].
        apply imap_get_In in En. eapply IHl; [eapply K3, En|exact Hin]. }
    destruct (encodes_remaining sub v p x m fk Hl H3) as [i [-> Ht]].
    destruct (mapping_targets (S (mv_size v)) v fk (remaining_of sub i) (i <? 0)%Z names ltac:(lia) Hd) as [t [r [B1 [B2 B3]]]].
    exists t, r. split; [exact B1|]. split; [exact B2|]. destruct t as [l|e]; cbn [mapped] in *; [|exact B3].
    rewrite B3. apply seq_results_eq, Ht.
  - cbn in H3. subst m. reflexivity.
Qed.
