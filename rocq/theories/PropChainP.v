(** * The work of following main fields: proofs for PropChain.v *)
From Coq Require Import String.
From Coq Require Import List Arith NArith Bool Lia.
From Verif Require Import Str StrP Path PathP Json Types Parse Map Prog Desc Resolve Top Run RunP Exec ExecP Posix PosixP Demo WitnessP SpecRun SpecLoad SpecWork TrieP NamesP SpecChain LookupP TermP PropWorkP.
Import ListNotations.

Lemma exec_bind {A B} : forall (p : prog A) (f : A -> prog B) tr r, exec (bind p f) tr r ->
  (exists a tr1 tr2, exec p tr1 (Done a) /\ exec (f a) tr2 r /\ tr = tr1 ++ tr2) \/
  (exists m, exec p tr (Panicked m) /\ r = Panicked m) \/ (exec p tr NoFuel /\ r = NoFuel).
Proof.
  induction p as [a|m| |o k IH]; intros f tr r H; cbn [bind] in H.
  - left. exists a, [], tr. split; [constructor|auto].
  - right; left. inversion H; subst. exists m. split; [constructor|reflexivity].
  - right; right. inversion H; subst. split; [constructor|reflexivity].
  - apply inv_do in H. destruct H as (x & tr' & -> & H). destruct (IH x f tr' r H) as [(a & t1 & t2 & H1 & H2 & ->)|[(m & H1 & ->)|[H1 ->]]].
    + left. exists a, (mkev o x :: t1), t2. split; [constructor; exact H1|auto].
    + right; left. exists m. split; [constructor; exact H1|reflexivity].
    + right; right. split; [constructor; exact H1|reflexivity].
Qed.

Lemma branches_one : forall f, branches 1 f = f.
Proof. induction f as [|f IH]; cbn [branches]; lia. Qed.
Lemma branches_mono : forall n m f, n <= m -> branches n f <= branches m f.
Proof. intros n m f H. induction f as [|f IH]; cbn [branches]; [lia|]. pose proof (Nat.mul_le_mono _ _ _ _ H IH). lia. Qed.
Lemma branches_up : forall n f g, f <= g -> branches n f <= branches n g.
Proof.
  intros n f g H. revert f H. induction g as [|g IH]; intros [|f] H; cbn [branches]; try lia. specialize (IH f ltac:(lia)).
  pose proof (Nat.mul_le_mono_l _ _ n IH). lia.
Qed.
Section Chain.
Variable fs : fsys.
Hypothesis Hsane : sane_fs fs.
Variable D : nat.
Variable G : ev -> Prop.
Variable R : resolver.
Hypothesis Hbro : o_browser (rv_opts R) = false.
Variable F : nat.
Notation load := (load_pkg_file R F).
Notation E := (length (o_extensions (rv_opts R))).
Notation M := (length (o_main_files (rv_opts R))).
Notation n := (length (o_main_fields (rv_opts R))).
Definition ok (e : ev) : Prop := from_disk fs e /\ shallow D e /\ G e.
Definition gd {A} (w : nat) (Q : A -> Prop) (p : prog A) : Prop :=
  forall tr r, exec p tr r -> Forall ok tr -> length tr <= w /\ forall a, r = Done a -> Q a.
Lemma gd_ret {A} : forall w (Q : A -> Prop) a, Q a -> gd w Q (Ret a).
Proof. intros w Q a HQ tr r H _. inversion H; subst. split; [cbn; lia|]. intros b E. inversion E; subst. exact HQ. Qed.
Lemma gd_fuel {A} : forall w (Q : A -> Prop), gd w Q OutOfFuel.
Proof. intros w Q tr r H _. inversion H; subst. split; [cbn; lia|discriminate]. Qed.
Lemma gd_panic {A} : forall w (Q : A -> Prop) m, gd w Q (Panic m).
Proof. intros w Q m tr r H _. inversion H; subst. split; [cbn; lia|discriminate]. Qed.
Lemma gd_of {A} : forall w (p : prog A), atmost w p -> gd w (fun _ => True) p.
Proof. intros w p H tr r He _. split; [exact (H _ _ He)|auto]. Qed.
Lemma gd_ad {A} : forall w (Q : A -> Prop) (p : prog A), ad fs w Q p -> gd w Q p.
Proof. intros w Q p H tr r He Hf. apply (H tr r He). eapply Forall_impl; [|exact Hf]. intros e [He1 _]. exact He1. Qed.
Lemma gd_le {A} : forall w w' (Q : A -> Prop) p, w <= w' -> gd w Q p -> gd w' Q p.
Proof. intros w w' Q p Hw H tr r He Hf. destruct (H tr r He Hf). split; [lia|assumption]. Qed.
Lemma gd_bind {A B} : forall w v (P : A -> Prop) (Q : B -> Prop) p f, gd w P p -> (forall a, P a -> gd v Q (f a)) -> gd (w + v) Q (bind p f).
Proof.
  intros w v P Q p f Hp Hf tr r H Ht. destruct (exec_bind p f tr r H) as [(a & t1 & t2 & H1 & H2 & ->)|[(m & H1 & ->)|[H1 ->]]].
  - apply Forall_app in Ht. destruct Ht as [Ht1 Ht2]. destruct (Hp _ _ H1 Ht1) as [L1 HP]. destruct (Hf a (HP a eq_refl) _ _ H2 Ht2) as [L2 HQ].
    rewrite app_length. split; [lia|exact HQ].
  - destruct (Hp _ _ H1 Ht) as [L1 _]. split; [lia|discriminate].
  - destruct (Hp _ _ H1 Ht) as [L1 _]. split; [lia|discriminate].
Qed.
Lemma gd_act {B} : forall w o (Q : B -> Prop) f, (forall x, ok (mkev o x) -> gd w Q (f x)) -> gd (S w) Q (bind (act o) f).
Proof.
  intros w o Q f Hf tr r H Ht. cbn [act bind] in H. apply inv_do in H. destruct H as (x & tr' & -> & H). inversion Ht; subst.
  destruct (Hf x H2 tr' r H H3) as [Hl HQ]. cbn [length]. split; [lia|exact HQ].
Qed.
(** Results keep to absolute paths. *)
Definition abso (s : stats) : Prop := match s with Resolving j | SError _ j => is_abs (i_path j) = true | Success _ => True end.
Lemma gd_and_then : forall w v p f, gd w abso p -> (forall i, is_abs (i_path i) = true -> gd v abso (f i)) -> gd (w + v) abso (and_then p f).
Proof.
  intros w v p f Hp Hf. unfold and_then. eapply gd_bind; [exact Hp|]. intros [r|i|e i] Hs; [apply gd_ret; exact I|apply Hf, Hs|apply gd_ret; exact Hs].
Qed.
Lemma gd_load : forall p, is_abs p = true -> gd (3 * D + 22) (fun _ => True) (load p).
Proof.
  intros p Ha tr r H Ht. destruct (gd_ad _ _ _ (ad_load fs Hsane R F p Ha) tr r H Ht) as [L _]. split; [|auto].
  destruct F as [|g]; cbn [load_pkg_file] in H; [inversion H; subst; cbn; lia|].
  destruct (o_desc (rv_opts R)) as [name|]; [|inversion H; subst; cbn; lia].
  cbn [act bind] in H. apply inv_do in H. destruct H as (x & tr' & -> & _). inversion Ht as [|? ? (_ & Hd & _) _]; subst. cbn in Hd. lia.
Qed.
Lemma gd_file : forall i, is_abs (i_path i) = true -> gd (1 + E) abso (resolve_as_file R i).
Proof.
  intros i Ha. assert (H : forall p l, gd (length l) abso (extensions_loop p i l)).
  { intros p l. induction l as [|e l IH]; cbn [extensions_loop length]; [apply gd_ret; exact Ha|]. apply gd_act. intros [|] _; [apply gd_ret; exact I|exact IH]. }
  unfold resolve_as_file, extensions_apply. destruct (enforce R); cbn [negb].
  - eapply gd_le; [|apply H]. lia.
  - apply gd_act. intros [|] _; [apply gd_ret; exact I|apply H].
Qed.
Lemma alias_off : forall fuel opk i, alias_field_apply R fuel opk i = Ret (Resolving i).
Proof. intros. unfold alias_field_apply. rewrite Hbro. reflexivity. Qed.
Lemma kind_dot : forall t, get_target_kind (lit "./" ++ t) = Relative.
Proof. intros t. unfold get_target_kind. destruct t; reflexivity. Qed.
Lemma exports_off : forall opk i, r_kind (i_req i) <> Normal -> exports_apply R opk i = Ret (Resolving i).
Proof. intros [pk|] i H; [|reflexivity]. unfold exports_apply. destruct (r_kind (i_req i)); try reflexivity. contradiction. Qed.
Lemma imports_off : forall fuel opk i, starts_with_char (r_target (i_req i)) c_hash = false -> imports_apply R load (S fuel) opk i = Ret (Resolving i).
Proof. intros fuel [pk|] i H; cbn [imports_apply]; [rewrite H|]; reflexivity. Qed.
Lemma gd_files : forall fuel opk i, is_abs (i_path i) = true -> gd (M * (1 + E)) abso (main_file_apply R load (S fuel) opk i).
Proof.
  intros fuel opk i Ha. unfold main_file_apply. assert (Hm : is_abs (i_path (mkInfo (i_path i) (i_req i))) = true) by exact Ha. revert Hm.
  generalize (mkInfo (i_path i) (i_req i)). induction (o_main_files (rv_opts R)) as [|f l IH]; intros mi Hm; cbn [main_file_loop length]; [apply gd_ret; exact Ha|].
  cbn [Nat.mul]. eapply (gd_bind _ _ abso).
  - rewrite exports_off by (cbn [with_target i_req req_with_target r_kind]; rewrite kind_dot; discriminate).
    unfold and_then at 3. cbn [bind]. rewrite imports_off by reflexivity. unfold and_then at 2. cbn [bind]. rewrite alias_off. unfold and_then. cbn [bind].
    apply gd_file. exact Hm.
  - intros [r|j|e j] Hs; cbn [is_success extract_info bind]; [apply gd_ret; exact I|apply IH, Hs|apply IH, Hs].
Qed.
Definition step_cost : nat := 23 + 3 * D + (1 + n + M) * (1 + E).
Lemma gd_fields : forall rad w fuel pk i, (forall j, is_abs (i_path j) = true -> gd w abso (rad j)) -> is_abs (i_path i) = true -> forall l mi, is_abs (i_path mi) = true ->
  gd (length l * (1 + E + w)) abso (main_field_loop R rad fuel pk i l mi).
Proof.
  intros rad w fuel pk i Hr Ha. induction l as [|fld l IH]; intros mi Hm; cbn [main_field_loop length]; [apply gd_ret; exact Ha|].
  destruct (opt_str (jget (p_raw pk) fld)) as [main|]; [|eapply gd_le; [|apply IH, Hm]; cbn [Nat.mul]; lia].
  destruct (str_eqb main s_dot || str_eqb main (lit "./")); [apply gd_ret; exact Ha|]. cbn [Nat.mul]. eapply (gd_bind _ _ abso).
  - rewrite alias_off. unfold and_then at 2. cbn [bind]. apply gd_and_then; [|exact Hr]. apply gd_file. destruct (starts_with main (lit "./")); exact Hm.
  - intros [r|j|e j] Hs; cbn [is_success extract_info bind]; [apply gd_ret; exact I|apply IH, Hs|apply IH, Hs].
Qed.
Lemma gd_dir : forall f i, is_abs (i_path i) = true -> gd (branches n f * step_cost) abso (resolve_as_dir R load f i).
Proof.
  induction f as [|f IH]; intros i Ha; cbn [resolve_as_dir]; [apply gd_fuel|]. pose proof (get_path_abs i Ha) as Hg.
  apply (gd_le (S (3 * D + 22 + (n * (1 + E + branches n f * step_cost) + M * (1 + E))))).
  { cbn [branches]. rewrite Nat.mul_add_distr_r, Nat.mul_1_l. unfold step_cost at 2. nia. }
  apply gd_act. intros [|] _; cbn [negb]; [|apply gd_ret; exact Ha].
  eapply gd_bind; [apply gd_load, Hg|]. intros [opk|e] _; [|apply gd_ret; exact Ha].
  apply gd_and_then; [|intros j Hj; apply gd_files, Hj]. unfold main_field_apply. destruct opk as [pk|]; [|apply gd_ret; exact Hg].
  destruct (negb _); [apply gd_ret; exact Hg|]. apply gd_fields; [exact IH|exact Hg|exact Hg].
Qed.
End Chain.
Lemma not_hash : forall t, get_target_kind t <> Internal -> starts_with_char t c_hash = false.
Proof. intros [|c t] H; [reflexivity|]. unfold get_target_kind in H. destruct (starts_with_char (c :: t) c_hash); [contradiction|reflexivity]. Qed.
Lemma fin_70_chain : forall fs, sane_fs fs -> forall R f base req D tr o, o_browser (rv_opts R) = false -> no_remap R base (r_target (parse req)) ->
  path_request req -> is_abs base = true ->
  exec (call_prog (CResolve R f base req)) tr o -> Forall (from_disk fs) tr -> Forall (shallow D) tr ->
  length tr <= (1 + branches (length (o_main_fields (rv_opts R))) f) *
    (23 + 3 * D + (1 + length (o_main_fields (rv_opts R)) + length (o_main_files (rv_opts R))) * (1 + length (o_extensions (rv_opts R)))).
Proof.
  intros fs Hs R f base req D tr o Hb Hn [K1 K2] Ha He Hf Hd.
  assert (Hok : Forall (ok fs D (fun _ => True)) tr) by (apply Forall_forall; intros e He'; split; [exact (proj1 (Forall_forall _ _) Hf e He')|split; [exact (proj1 (Forall_forall _ _) Hd e He')|exact I]]).
  set (n := length (o_main_fields (rv_opts R))). set (M := length (o_main_files (rv_opts R))). set (E := length (o_extensions (rv_opts R))).
  set (K := 23 + 3 * D + (1 + n + M) * (1 + E)). set (L := 3 * D + 22 + (1 + E + branches n f * K)).
  assert (G : gd fs D (fun _ => True) (L + 1 + 0) (fun _ => True) (call_prog (CResolve R f base req))).
  - cbn [call_prog]. eapply (gd_bind fs D (fun _ => True) _ _ (fun _ => True)); [|intros a _; apply gd_ret; exact I].
    unfold resolve, resolve_with. pose proof Hn as (_ & _ & ->). cbv zeta. eapply (gd_bind fs D (fun _ => True) _ _ (fun _ => True)).
    + destruct f as [|f']; cbn [resolve_]; [apply gd_fuel|]. destruct (no_remap_steps R (mkInfo base (parse req)) Hn) as [H1 H2].
      unfold and_then at 2 3. rewrite H1. cbn [bind]. rewrite H2. cbn [bind]. apply (gd_le fs D (fun _ => True) (L + 0)); [lia|].
      eapply (gd_bind fs D (fun _ => True) _ _ abso); [|intros [r|j|e j] _; [apply gd_ret; exact I|apply gd_panic|apply gd_ret; exact I]].
      unfold L. assert (Hp : gd fs D (fun _ => True) (3 * D + 22) (fun s => s = Resolving (mkInfo base (parse req)) \/ exists e, s = SError e (mkInfo base (parse req)))
        (pkg_step R (load_pkg_file R (S f')) (S f') (mkInfo base (parse req)))).
      { unfold pkg_step. apply (gd_le fs D (fun _ => True) (3 * D + 22 + 0)); [lia|]. eapply (gd_bind fs D (fun _ => True) _ _ (fun _ => True)).
        - assert (Er : (match r_kind (i_req (mkInfo base (parse req))) with Normal => join (join (i_path (mkInfo base (parse req))) MODULE) (r_target (i_req (mkInfo base (parse req)))) | _ => get_path (mkInfo base (parse req)) end) = get_path (mkInfo base (parse req))).
          { cbn [i_req]. destruct (r_kind (parse req)); try reflexivity. contradiction. }
          rewrite Er. apply gd_load; [exact Hs|]. apply get_path_abs. exact Ha.
        - intros [opk|e] _; [|apply gd_ret; right; eexists; reflexivity].
          rewrite imports_off. + unfold and_then. cbn [bind]. rewrite (alias_off R Hb). apply gd_ret. left. reflexivity.
          + cbn [i_req]. apply not_hash. intros Hk. apply K2. rewrite <- Hk. unfold parse. destruct (parse_identifier req) as [[? ?] ?]. reflexivity. }
      unfold and_then at 1. eapply gd_bind; [exact Hp|]. intros s [->|[e ->]]; [|apply gd_ret; exact Ha].
      assert (Hfin : gd fs D (fun _ => True) (1 + E + branches n (S f') * K) abso (and_then (resolve_as_file R (mkInfo base (parse req))) (resolve_as_dir R (load_pkg_file R (S f')) (S f')))).
      { apply gd_and_then; [apply gd_file; exact Ha|]. intros j Hj. apply gd_dir; assumption. }
      unfold final_step. cbn [i_req]. destruct (r_kind (parse req)); try exact Hfin; contradiction.
    + intros [r|j|e j] _; try (apply gd_ret; exact I); try apply gd_panic. unfold normalize_result. destruct r as [j|]; [|apply gd_ret; exact I].
      destruct (_ && _); [apply gd_panic|]. unfold try_, normalize_path. destruct (o_symlinks (rv_opts R)); [|apply gd_ret; exact I].
      cbn [act bind]. change (gd fs D (fun _ => True) (S 0) (fun _ => True) (bind (act (OCanon (i_path j))) (fun c => bind (match c with None => Ret (Err (lit "Path normalized failed")) | Some q => Ret (Ok q) end) (fun r => match r with Ok p => Ret (Ok (RInfo (with_path j p))) | Err e => Ret (Err e) end)))).
      apply gd_act. intros [q|] _; apply gd_ret; exact I.
  - destruct (G tr o He Hok) as [Hl _]. unfold L in Hl. rewrite Nat.mul_add_distr_r, Nat.mul_1_l. unfold K at 1. cbn [Nat.mul] in *. lia.
Qed.
Lemma fin_70_one : forall fs, sane_fs fs -> forall R f base req D tr o, o_browser (rv_opts R) = false -> no_remap R base (r_target (parse req)) ->
  path_request req -> is_abs base = true -> length (o_main_fields (rv_opts R)) <= 1 ->
  exec (call_prog (CResolve R f base req)) tr o -> Forall (from_disk fs) tr -> Forall (shallow D) tr ->
  length tr <= (1 + f) * (23 + 3 * D + (2 + length (o_main_files (rv_opts R))) * (1 + length (o_extensions (rv_opts R)))).
Proof.
  intros fs Hs R f base req D tr o Hb Hn Hp Ha H1 He Hf Hd. pose proof (fin_70_chain fs Hs R f base req D tr o Hb Hn Hp Ha He Hf Hd) as H.
  pose proof (branches_mono _ _ f H1) as B. rewrite branches_one in B.
  eapply Nat.le_trans; [exact H|]. apply Nat.mul_le_mono; [lia|]. apply Nat.add_le_mono_l. apply Nat.mul_le_mono_r. lia.
Qed.

(** ** Package requests *)
Section Wide.
Variable fs : fsys.
Hypothesis Hsane : sane_fs fs.
Variables D X : nat.
Variable R : resolver.
Hypothesis Hbro : o_browser (rv_opts R) = false.
Notation G := (narrow D X).
Notation gd := (gd fs D G).
Notation ok := (ok fs D G).
Notation E := (length (o_extensions (rv_opts R))).
Notation M := (length (o_main_files (rv_opts R))).
Notation n := (length (o_main_fields (rv_opts R))).
Notation K := (step_cost D R).
Definition pg {A} (Q : A -> Prop) (p : prog A) : Prop := forall tr a, exec p tr (Done a) -> Forall ok tr -> Q a.
Lemma pg_ret {A} : forall (Q : A -> Prop) a, Q a -> pg Q (Ret a).
Proof. intros Q a HQ tr b H _. inversion H; subst. exact HQ. Qed.
Lemma pg_fuel {A} : forall (Q : A -> Prop), pg Q OutOfFuel.
Proof. intros Q tr b H _. inversion H. Qed.
Lemma pg_any {A} : forall (p : prog A), pg (fun _ => True) p.
Proof. intros p tr a _ _. exact I. Qed.
Lemma pg_bind {A B} : forall (P : A -> Prop) (Q : B -> Prop) p f, pg P p -> (forall a, P a -> pg Q (f a)) -> pg Q (bind p f).
Proof.
  intros P Q p f Hp Hf tr b H Ht. destruct (exec_bind p f tr _ H) as [(a & t1 & t2 & H1 & H2 & ->)|[(m & H1 & E1)|[H1 E1]]]; try discriminate.
  apply Forall_app in Ht. destruct Ht as [Ht1 Ht2]. exact (Hf a (Hp _ _ H1 Ht1) _ _ H2 Ht2).
Qed.
Lemma pg_act {B} : forall o (Q : B -> Prop) f, (forall x, ok (mkev o x) -> pg Q (f x)) -> pg Q (bind (act o) f).
Proof.
  intros o Q f Hf tr r H Ht. cbn [act bind] in H. apply inv_do in H. destruct H as (x & tr' & -> & H). inversion Ht; subst. exact (Hf x H2 tr' r H H3).
Qed.
Definition mod_res (r : result (option pkg)) : Prop := forall pk, r = Ok (Some pk) -> modest D X pk.
Lemma pg_store : forall p dfp, pg mod_res (parse_and_store R p dfp).
Proof.
  intros p dfp. unfold parse_and_store, try_. eapply pg_bind; [apply pg_any|]. intros [pk|e] _; [|apply pg_ret; intros pk Hx; discriminate].
  apply pg_act. intros x (_ & _ & Hx). apply pg_ret. intros pk' Ex. injection Ex as <-. exact (Hx pk eq_refl).
Qed.
Lemma pg_load : forall f p, pg mod_res (load_pkg_file R f p).
Proof.
  induction f as [|f IH]; intros p; cbn [load_pkg_file]; [apply pg_fuel|]. destruct (o_desc (rv_opts R)) as [name|]; [|apply pg_ret; discriminate].
  apply pg_act. intros [|] _; cbn [negb]; [|destruct (parent p); [apply IH|apply pg_ret; discriminate]].
  cbv zeta. apply pg_act. intros [v|] (_ & _ & Hv).
  - unfold try_. eapply pg_bind; [apply pg_any|]. intros [u|e] _; [|apply pg_ret; discriminate]. destruct u; cbn [negb]; [apply pg_store|].
    apply pg_ret. intros pk Ex. injection Ex as ->. exact (Hv pk eq_refl).
  - apply pg_act. intros [|] _; [apply pg_store|]. eapply pg_bind; [apply pg_any|]. intros [d|] _; [apply IH|].
    clear. revert p. induction f as [|f IH]; intros p; cbn [none_loop]; [apply pg_fuel|]. apply pg_act. intros [|] _; [|apply IH].
    apply pg_act. intros _ _. destruct (parent p); [apply IH|apply pg_ret; discriminate].
Qed.
Lemma gd_loaded : forall F p, is_abs p = true -> gd (3 * D + 22) mod_res (load_pkg_file R F p).
Proof.
  intros F p Ha tr r H Ht. destruct (gd_load fs Hsane D G R F p Ha tr r H Ht) as [L _]. split; [exact L|]. intros a ->. exact (pg_load F p tr a H Ht).
Qed.
Definition keeps (P : info -> Prop) (s : stats) : Prop := match s with Resolving j | SError _ j => P j | Success _ => True end.
Lemma keeps_and_then : forall (P : info -> Prop) w v p f, gd w (keeps P) p -> (forall i, P i -> gd v (keeps P) (f i)) -> gd (w + v) (keeps P) (and_then p f).
Proof.
  intros P w v p f Hp Hf. unfold and_then. eapply gd_bind; [exact Hp|]. intros [r|i|e i] Hs; [apply gd_ret; exact I|apply Hf, Hs|apply gd_ret; exact Hs].
Qed.
Lemma gd_exports : forall (P : info -> Prop) opk i, (forall pk, opk = Some pk -> modest D X pk /\ forall rq, P (mkInfo (p_dir pk) rq)) -> P i ->
  gd (1 + X) (keeps P) (exports_apply R opk i).
Proof.
  intros P [pk|] i Hm Ha; [|apply gd_ret; exact Ha]. destruct (Hm pk eq_refl) as ((_ & _ & Hl) & Hd). unfold exports_apply.
  destruct (negb _); [apply gd_ret; exact Ha|]. destruct (_ && _); [apply gd_ret; exact Ha|]. destruct (p_exports pk) as [tree|] eqn:Ex; [|apply gd_ret; exact Ha].
  eapply (gd_bind fs D G 1 X (fun _ => True)).
  - unfold exports_subpath. cbv zeta. apply (gd_bind fs D G 0 1 (fun _ => True)).
    + destruct (starts_with_char _ _); [destruct (find_char _ _) as [[b a]|]|]; [apply gd_ret; exact I|apply gd_panic|apply gd_ret; exact I].
    + intros chars _. destruct (find_char chars c_slash) as [[b a]|]; [apply gd_ret; exact I|]. apply gd_act. intros e _. destruct (_ || _); apply gd_ret; exact I.
  - intros [t|] _; [|apply gd_ret; exact Ha]. destruct (field_process FExports tree (exports_remaining i t) (o_conditions (rv_opts R))) as [[l|e]|m|] eqn:Ef; cbn [lift bind];
      [|apply gd_ret; exact Ha|apply gd_panic|apply gd_fuel].
    pose proof (Hl tree _ _ l eq_refl Ef) as Hlen. eapply gd_le; [exact Hlen|]. clear Ef Hlen Hl. induction l as [|item l IH]; cbn [exports_loop length]; [apply gd_ret; exact Ha|].
    apply gd_act. intros [|] _; [|exact IH]. destruct (check_target _) as [[|]|m|]; cbn [lift bind]; [apply gd_ret; apply Hd|eapply gd_le; [|exact IH]; lia|apply gd_panic|apply gd_fuel].
Qed.
(** Paths that are absolute and not too long. *)
Definition near (B : nat) (j : info) : Prop := is_abs (i_path j) = true /\ length (components (i_path j)) <= B.
Lemma near_dir : forall B pk rq, S D <= B -> modest D X pk -> near B (mkInfo (p_dir pk) rq) /\ near B (mkInfo (join (p_dir pk) MODULE) rq).
Proof.
  intros B pk rq HB (H1 & H2 & _). split; split; cbn [i_path]; [exact H1|lia|apply join_abs, H1|].
  rewrite components_join; [|reflexivity|intros E; rewrite E in H1; discriminate]. rewrite app_length. change (length (body_comps MODULE)) with 1. lia.
Qed.
Definition import_cost : nat := 24 + 3 * D + X.
Lemma gd_check : forall (P : info -> Prop) i t, P i -> gd 1 (keeps P) (imports_check i t).
Proof.
  intros P i t Hi. unfold imports_check. apply gd_act. intros [|] _; [|apply gd_ret; exact Hi].
  destruct (check_target _) as [[|]|m|]; cbn [lift bind]; [apply gd_ret; exact Hi|apply gd_ret; exact Hi|apply gd_panic|apply gd_fuel].
Qed.
Lemma gd_imports : forall B F f opk i, S D <= B -> (forall pk, opk = Some pk -> modest D X pk) -> near B i ->
  gd (f * import_cost) (keeps (near B)) (imports_apply R (load_pkg_file R F) f opk i).
Proof.
  intros B F f opk i HB. revert opk i. induction f as [|f IH]; intros opk i Hm Hi; cbn [imports_apply]; [apply gd_fuel|].
  destruct opk as [pk|]; [|apply gd_ret; exact Hi]. cbv zeta. destruct (negb _); [apply gd_ret; exact Hi|]. destruct (p_imports pk) as [root|]; [|apply gd_ret; exact Hi].
  destruct (field_process _ _ _ _) as [[l|e]|m|]; cbn [lift bind]; [|apply gd_ret; exact Hi|apply gd_panic|apply gd_fuel].
  destruct l as [|item l]; [apply gd_ret; exact Hi|]. pose proof (Hm pk eq_refl) as Hpk.
  assert (Hchk : forall rq t, gd (S f * import_cost) (keeps (near B)) (imports_check (mkInfo (p_dir pk) rq) t)).
  { intros rq t. apply (gd_le fs D G 1); [unfold import_cost; lia|]. apply gd_check, near_dir; assumption. }
  destruct (r_kind (parse item)); try apply Hchk.
  - apply (gd_le fs D G (f * import_cost)); [lia|]. apply IH; [exact Hm|]. apply near_dir; assumption.
  - apply (gd_le fs D G (3 * D + 22 + (1 + X + f * import_cost + 0 + 1))); [unfold import_cost; lia|].
    destruct (near_dir B pk (parse item) HB Hpk) as [_ Hj].
    eapply gd_bind; [apply gd_loaded, get_path_abs; exact (proj1 Hj)|]. intros [opk'|e] Hl; [|apply gd_ret; exact Hj].
    assert (Hm' : forall pk', opk' = Some pk' -> modest D X pk') by (intros pk' ->; apply Hl; reflexivity).
    match goal with |- context [and_then (and_then (and_then ?a ?b) ?c) ?d] => assert (Hc : gd (1 + X + f * import_cost + 0 + 1) (keeps (near B)) (and_then (and_then (and_then a b) c) d)) end.
    { apply keeps_and_then; [|intros j Hn; apply gd_check; exact Hn]. apply keeps_and_then; [|intros j Hn; rewrite (alias_off R Hbro); apply gd_ret; exact Hn].
      apply keeps_and_then; [|intros j Hn; apply IH; [exact Hm'|exact Hn]].
      apply gd_exports; [|exact Hj]. intros pk' E'. split; [apply Hm', E'|]. intros rq. apply near_dir; [exact HB|apply Hm', E']. }
    destruct opk' as [pk'|]; [|exact Hc]. destruct (negb _); [apply gd_ret; exact Hj|exact Hc].
Qed.
Lemma keeps_abso : forall w p, gd w (keeps (fun j => is_abs (i_path j) = true)) p -> gd w abso p.
Proof. intros w p H tr r He Hk. destruct (H tr r He Hk) as [Hl Hq]. split; [exact Hl|]. intros [x|j|e j] E; exact (Hq _ E). Qed.
Lemma gd_weak : forall w (P Q : stats -> Prop) p, (forall s, P s -> Q s) -> gd w P p -> gd w Q p.
Proof. intros w P Q p HPQ H tr r He Hk. destruct (H tr r He Hk) as [Hl Hq]. split; [exact Hl|]. intros s E. apply HPQ, Hq, E. Qed.
Definition level_cost (f : nat) : nat := 27 + 3 * D + X + E + f * import_cost + branches n f * K.
Lemma gd_level : forall F f i, is_abs (i_path i) = true ->
  gd (level_cost (S f)) (fun s => match s with inl s | inr s => abso s end) (modules_level R (load_pkg_file R F) (S f) i).
Proof.
  intros F f i Ha. unfold modules_level. cbv zeta. pose proof (join_abs (i_path i) MODULE Ha) as Hr.
  apply (gd_le fs D G (S (3 * D + 22 + S ((1 + X + S f * import_cost + (1 + E) + branches n (S f) * K) + 0)))); [unfold level_cost; lia|].
  apply gd_act. intros [|] _; cbn [negb]; [|apply gd_ret; exact Ha]. destruct (module_name _) as [mname|]; [|apply gd_panic].
  eapply gd_bind; [apply gd_loaded, join_abs, Hr|]. intros [opk|e] Hm; [|apply gd_ret; exact Ha].
  assert (Hm' : forall pk, opk = Some pk -> modest D X pk) by (intros pk ->; apply Hm; reflexivity).
  apply gd_act. intros md _. destruct (_ && _).
  - apply (gd_le fs D G ((1 + E) + 0)); [lia|]. eapply (gd_bind fs D G _ _ abso); [apply gd_file; exact Hr|]. intros s Hs. destruct (is_success s); apply gd_ret; [exact Hs|exact Ha].
  - eapply (gd_bind fs D G _ _ abso).
    + apply gd_and_then; [|intros j Hj; apply (gd_dir fs Hsane D G R Hbro); exact Hj].
      apply gd_and_then; [|intros j Hj; apply gd_file; exact Hj].
      apply (gd_le fs D G (1 + X + S f * import_cost + 0)); [lia|]. apply (gd_and_then fs D G (1 + X + S f * import_cost) 0).
      * apply (gd_and_then fs D G (1 + X) (S f * import_cost)).
        -- apply keeps_abso. apply gd_exports; [|exact Hr]. intros pk E'. split; [apply Hm', E'|]. intros rq. exact (proj1 (Hm' pk E')).
        -- intros j Hj. apply (gd_weak _ (keeps (near (S D + length (components (i_path j)))))).
           { intros [x|j'|e j'] Hs; [exact I|exact (proj1 Hs)|exact (proj1 Hs)]. }
           apply gd_imports; [lia|exact Hm'|]. split; [exact Hj|lia].
      * intros j Hj. cbv zeta. rewrite (alias_off R Hbro). apply gd_ret. destruct (r_kind (i_req j)); exact Hj.
    + intros [r|j|e j] Hs; [apply gd_ret; exact I|apply gd_ret; exact Hs|]. destruct (str_eqb e TAG); apply gd_ret; [exact Ha|exact Hs].
Qed.
Lemma gd_modules : forall F g f i, f <= g -> is_abs (i_path i) = true ->
  gd ((length (components (i_path i)) + 1) * level_cost g) abso (resolve_as_modules R (load_pkg_file R F) f i).
Proof.
  intros F g. induction f as [|f IH]; intros i Hf Ha; cbn [resolve_as_modules]; [apply gd_fuel|].
  remember (length (components (i_path i))) as k eqn:Ek. replace ((k + 1) * level_cost g) with (level_cost g + (k * level_cost g + 0)) by lia.
  eapply gd_bind.
  - eapply gd_le; [|apply gd_level, Ha]. unfold level_cost. pose proof (branches_up n (S f) g Hf) as B. pose proof (Nat.mul_le_mono_r _ _ K B). pose proof (Nat.mul_le_mono_r _ _ import_cost Hf). lia.
  - intros [s|s] Hs; [apply gd_ret; exact Hs|]. eapply (gd_bind fs D G _ _ abso); [|intros [r|j|e j] Hj; apply gd_ret; exact Hj].
    apply (gd_and_then fs D G 0); [apply gd_ret; exact Hs|]. intros j Hj. destruct (parent (i_path i)) as [q|] eqn:Ep; [|apply gd_ret; exact Hj].
    pose proof (parent_shorter _ _ Ep). eapply gd_le; [|apply IH; [lia|cbn [with_path i_path]; eapply parent_abs; eassumption]].
    cbn [with_path i_path]. apply Nat.mul_le_mono_r. lia.
Qed.
Lemma fin_wide : forall f base req tr o, no_remap R base (r_target (parse req)) -> is_abs base = true ->
  exec (call_prog (CResolve R f base req)) tr o -> Forall ok tr ->
  length tr <= 23 + 3 * D + f * import_cost + (length (components base) + D + 2) * level_cost f.
Proof.
  intros f base req tr o Hn Ha He Hok. set (B := S D + length (components base)). set (C := (B + 1) * level_cost f). set (L := 3 * D + 22 + f * import_cost + C).
  assert (H : gd (L + 1 + 0) (fun _ => True) (call_prog (CResolve R f base req))); [|destruct (H tr o He Hok) as [Hl _]; unfold L, C, B in Hl; replace (length (components base) + D + 2) with (S D + length (components base) + 1) by lia; lia].
  cbn [call_prog]. eapply (gd_bind fs D G _ _ (fun _ => True)); [|intros a _; apply gd_ret; exact I].
  unfold resolve, resolve_with. pose proof Hn as (_ & _ & ->). cbv zeta. eapply (gd_bind fs D G _ _ (fun _ => True)).
  - destruct f as [|f']; cbn [resolve_]; [apply gd_fuel|]. destruct (no_remap_steps R (mkInfo base (parse req)) Hn) as [H1 H2].
    unfold and_then at 2 3. rewrite H1. cbn [bind]. rewrite H2. cbn [bind]. apply (gd_le fs D G (L + 0)); [lia|].
    eapply (gd_bind fs D G _ _ abso); [|intros [r|j|e j] _; [apply gd_ret; exact I|apply gd_panic|apply gd_ret; exact I]].
    unfold L, and_then at 1. eapply (gd_bind fs D G _ _ (keeps (near B))).
    + unfold pkg_step. apply (gd_le fs D G (3 * D + 22 + (S f' * import_cost + 0))); [lia|].
      assert (Hi : near B (mkInfo base (parse req))) by (split; [exact Ha|cbn [i_path]; unfold B; lia]). eapply gd_bind.
      * apply gd_loaded. destruct (r_kind _); [apply get_path_abs; exact Ha|apply get_path_abs; exact Ha|apply get_path_abs; exact Ha|apply get_path_abs; exact Ha|apply join_abs, join_abs; exact Ha].
      * intros [opk|e] Hm; [|apply gd_ret; exact Hi]. apply keeps_and_then; [|intros j Hj; rewrite (alias_off R Hbro); apply gd_ret; exact Hj].
        apply gd_imports; [unfold B; lia|intros pk ->; apply Hm; reflexivity|exact Hi].
    + intros [x|j|e j] Hs; [apply gd_ret; exact I| |apply gd_ret; exact (proj1 Hs)]. destruct Hs as [Hj Hlen].
      assert (Hp : gd C abso (and_then (resolve_as_file R j) (resolve_as_dir R (load_pkg_file R (S f')) (S f')))).
      { apply (gd_le fs D G (1 + E + branches n (S f') * K)); [unfold C, level_cost; nia|].
        apply gd_and_then; [apply gd_file; exact Hj|]. intros j' Hj'. apply (gd_dir fs Hsane D G R Hbro); exact Hj'. }
      assert (Hq : gd C abso (resolve_as_modules R (load_pkg_file R (S f')) (S f') j)).
      { eapply gd_le; [|apply (gd_modules (S f') (S f') (S f') j); [lia|exact Hj]]. unfold C. apply Nat.mul_le_mono_r. lia. }
      unfold final_step. destruct (r_kind _); assumption.
  - intros [r|j|e j] _; try (apply gd_ret; exact I); try apply gd_panic. unfold normalize_result. destruct r as [j|]; [|apply gd_ret; exact I].
    destruct (_ && _); [apply gd_panic|]. unfold try_, normalize_path. destruct (o_symlinks (rv_opts R)); [|apply gd_ret; exact I].
    cbn [act bind]. change (gd (S 0) (fun _ => True) (bind (act (OCanon (i_path j))) (fun c => bind (match c with None => Ret (Err (lit "Path normalized failed")) | Some q => Ret (Ok q) end) (fun r => match r with Ok p => Ret (Ok (RInfo (with_path j p))) | Err e => Ret (Err e) end)))).
    apply gd_act. intros [q|] _; apply gd_ret; exact I.
Qed.
End Wide.
Lemma fin_70_any : forall fs, sane_fs fs -> forall R f base req D X tr o, o_browser (rv_opts R) = false -> no_remap R base (r_target (parse req)) ->
  is_abs base = true -> length (o_main_fields (rv_opts R)) <= 1 ->
  exec (call_prog (CResolve R f base req)) tr o -> Forall (from_disk fs) tr -> Forall (shallow D) tr -> Forall (narrow D X) tr ->
  length tr <= (length (components base) + D + 3) * (27 + 3 * D + X + length (o_extensions (rv_opts R)) +
    f * (47 + 6 * D + X + (2 + length (o_main_files (rv_opts R))) * (1 + length (o_extensions (rv_opts R))))).
Proof.
  intros fs Hs R f base req D X tr o Hb Hn Ha H1 He Hf Hd Hx.
  assert (Hok : Forall (ok fs D (narrow D X)) tr) by (apply Forall_forall; intros e Hi; split; [exact (proj1 (Forall_forall _ _) Hf e Hi)|split; [exact (proj1 (Forall_forall _ _) Hd e Hi)|exact (proj1 (Forall_forall _ _) Hx e Hi)]]).
  pose proof (fin_wide fs Hs D X R Hb f base req tr o Hn Ha He Hok) as H. unfold level_cost, step_cost, import_cost in H.
  pose proof (branches_mono _ _ f H1) as B. rewrite branches_one in B.
  set (n := length (o_main_fields (rv_opts R))) in *. set (M := length (o_main_files (rv_opts R))) in *. set (E := length (o_extensions (rv_opts R))) in *.
  set (K := 23 + 3 * D + (1 + n + M) * (1 + E)) in *. set (K' := 23 + 3 * D + (2 + M) * (1 + E)).
  assert (HK : K <= K') by (unfold K, K'; apply Nat.add_le_mono_l, Nat.mul_le_mono_r; lia).
  pose proof (Nat.mul_le_mono _ _ _ _ B HK) as BK. eapply Nat.le_trans; [exact H|].
  replace (47 + 6 * D + X + (2 + M) * (1 + E)) with ((24 + 3 * D + X) + K') by (unfold K'; lia). rewrite (Nat.mul_add_distr_l f (24 + 3 * D + X) K').
  set (c := length (components base)). set (v := branches n f * K) in *. set (u := f * K') in *. set (w := f * (24 + 3 * D + X)). clearbody u v w.
  replace (c + D + 3) with (S (c + D + 2)) by lia. set (y := 27 + 3 * D + X + E + (w + u)). cbn [Nat.mul].
  apply Nat.add_le_mono; [unfold y; lia|]. apply Nat.mul_le_mono_l. unfold y. lia.
Qed.

Lemma fin_70_all : forall fs, sane_fs fs -> forall R f base req D X tr o, o_browser (rv_opts R) = false -> no_remap R base (r_target (parse req)) ->
  is_abs base = true ->
  exec (call_prog (CResolve R f base req)) tr o -> Forall (from_disk fs) tr -> Forall (shallow D) tr -> Forall (narrow D X) tr ->
  length tr <= (length (components base) + D + 3) * (27 + 3 * D + X + length (o_extensions (rv_opts R)) + f * (24 + 3 * D + X) +
    branches (length (o_main_fields (rv_opts R))) f *
      (23 + 3 * D + (1 + length (o_main_fields (rv_opts R)) + length (o_main_files (rv_opts R))) * (1 + length (o_extensions (rv_opts R))))).
Proof.
  intros fs Hs R f base req D X tr o Hb Hn Ha He Hf Hd Hx.
  assert (Hok : Forall (ok fs D (narrow D X)) tr) by (apply Forall_forall; intros e Hi; split; [exact (proj1 (Forall_forall _ _) Hf e Hi)|split; [exact (proj1 (Forall_forall _ _) Hd e Hi)|exact (proj1 (Forall_forall _ _) Hx e Hi)]]).
  pose proof (fin_wide fs Hs D X R Hb f base req tr o Hn Ha He Hok) as H. unfold level_cost, step_cost, import_cost in H. eapply Nat.le_trans; [exact H|].
  set (c := length (components base)). set (v := branches _ f * _). set (w := f * (24 + 3 * D + X)). clearbody v w.
  replace (c + D + 3) with (S (c + D + 2)) by lia. set (z := (c + D + 2) * _). cbn [Nat.mul]. fold z. lia.
Qed.

(** ** Runs *)
Lemma events_run {A} : forall fs (p : prog A) st, exec p (events fs p st) (out fs st p) /\ Forall (from_disk fs) (events fs p st) /\ length (events fs p st) = work fs p st.
Proof.
  intros fs. unfold out. induction p as [a|m| |o k IH]; intros st; cbn [events run fst work length]; try (split; [constructor|split; [constructor|reflexivity]]).
  destruct (step fs st o) as [x st'] eqn:Es. cbn [fst snd]. destruct (IH x st') as (H1 & H2 & H3). split; [constructor; exact H1|].
  split; [constructor; [|exact H2]|rewrite H3; reflexivity].
  destruct o; cbn [step] in Es; cbn; auto; injection Es as <- <-; reflexivity.
Qed.
Lemma fin_70_run : forall fs, sane_fs fs -> forall R f base req D st, o_browser (rv_opts R) = false -> no_remap R base (r_target (parse req)) ->
  path_request req -> is_abs base = true -> length (o_main_fields (rv_opts R)) <= 1 ->
  Forall (shallow D) (events fs (call_prog (CResolve R f base req)) st) ->
  work fs (call_prog (CResolve R f base req)) st <= (1 + f) * (23 + 3 * D + (2 + length (o_main_files (rv_opts R))) * (1 + length (o_extensions (rv_opts R)))).
Proof.
  intros fs Hs R f base req D st Hb Hn Hp Ha H1 Hd. destruct (events_run fs (call_prog (CResolve R f base req)) st) as (He & Hf & Hl).
  rewrite <- Hl. eapply fin_70_one; eassumption.
Qed.
Lemma fin_70_any_run : forall fs, sane_fs fs -> forall R f base req D X st, o_browser (rv_opts R) = false -> no_remap R base (r_target (parse req)) ->
  is_abs base = true -> length (o_main_fields (rv_opts R)) <= 1 ->
  Forall (shallow D) (events fs (call_prog (CResolve R f base req)) st) -> Forall (narrow D X) (events fs (call_prog (CResolve R f base req)) st) ->
  work fs (call_prog (CResolve R f base req)) st <= (length (components base) + D + 3) * (27 + 3 * D + X + length (o_extensions (rv_opts R)) +
    f * (47 + 6 * D + X + (2 + length (o_main_files (rv_opts R))) * (1 + length (o_extensions (rv_opts R))))).
Proof.
  intros fs Hs R f base req D X st Hb Hn Ha H1 Hd Hx. destruct (events_run fs (call_prog (CResolve R f base req)) st) as (He & Hf & Hl).
  rewrite <- Hl. eapply fin_70_any; eassumption.
Qed.
Definition R70one : resolver := mkR (with_fields dflt [lit "module"]) texts70.
Definition call70 (f : nat) : prog answer := call_prog (CResolve R70one f (lit "/") (lit "./d")).
Lemma ex70c : (o_browser (rv_opts R70one) = false /\ no_remap R70one (lit "/") (r_target (parse (lit "./d"))) /\ path_request (lit "./d") /\ length (o_main_fields (rv_opts R70one)) = 1) /\
  Forall (shallow 5) (events (W (deep 2)) (call70 8) st0) /\
  out (W (deep 2)) st0 (call70 8) = Done (AResolve (Ok (RInfo (mkInfo (lit "/d/index.js") (mkReq [] [] [] Relative))))) /\
  map (fun n => work (W (deep n)) (call70 (n + 6)) st0) [0; 1; 2; 3; 4; 5] = [39; 56; 73; 90; 107; 124].
Proof.
  split; [|split; [|split; vm_compute; reflexivity]].
  - split; [reflexivity|]. split; [split; [left; reflexivity|split; [left; reflexivity|reflexivity]]|]. split; [split; vm_compute; discriminate|reflexivity].
  - assert (H : forall D l, forallb (fun e : ev => match e with existT _ o _ => match o with OIsDir p => Nat.leb (length (components p)) D | _ => true end end) l = true -> Forall (shallow D) l).
    { intros D l H. rewrite forallb_forall in H. apply Forall_forall. intros [o x] Hi. specialize (H _ Hi). destruct o; cbn in *; auto. apply Nat.leb_le, H. }
    apply H. vm_compute. reflexivity.
Qed.

(** ** The example with exports *)
Lemma two_targets : forall a b k sub conds l, field_process FExports (mkPtn None None None [([], MArray [ADirect a; ADirect b])]) sub conds = PRet (Ok l) ->
  k = 2 -> length l <= k.
Proof.
  intros a b k sub conds l H ->. unfold field_process in H. destruct (assert_request FExports sub) as [rq|e]; [|discriminate].
  set (P := fun v => v = MArray [ADirect a; ADirect b]).
  assert (T : trie_ok P (mkPtn None None None [([], MArray [ADirect a; ADirect b])])).
  { constructor; cbn; try contradiction; try discriminate.
    - apply NoDup_nil.
    - intros x v [E|[]]. injection E as <- <-. split; [reflexivity|intros []].
    - intros x v [E|[]]. injection E as <- <-. reflexivity. }
  destruct (find_match _ rq) as [m|m|] eqn:Em; cbn [pbind] in H; try discriminate. pose proof (find_match_good P _ _ _ T Em) as Hg.
  destruct m as [[v i]|]; [|injection H as <-; cbn; lia]. pose proof (Hg v i eq_refl) as Hv. unfold P in Hv. subst v. cbn [mapping] in H.
  destruct (target_mapping _ _ _ a); [|discriminate]. destruct (target_mapping _ _ _ b); [|discriminate]. injection H as <-. cbn. lia.
Qed.
Definition modestb (pk : pkg) : bool :=
  is_abs (p_dir pk) && Nat.leb (length (components (p_dir pk))) 4 &&
  match p_exports pk with None => true | Some (mkPtn None None None [([], MArray [ADirect _; ADirect _])]) => true | _ => false end.
Lemma modestb_ok : forall pk, modestb pk = true -> modest 4 2 pk.
Proof.
  intros pk H. unfold modestb in H. apply andb_prop in H. destruct H as [H H3]. apply andb_prop in H. destruct H as [H1 H2].
  split; [exact H1|]. split; [apply Nat.leb_le, H2|]. intros tree sub conds l E Hf. rewrite E in H3.
  destruct tree as [[?|] [?|] [?|] files]; try discriminate. destruct files as [|[k v] files]; try discriminate.
  destruct k; try discriminate. destruct v as [s|m|ts]; try discriminate. destruct ts as [|x ts]; try discriminate. destruct x as [a|m]; try discriminate.
  destruct ts as [|y ts]; try discriminate. destruct y as [b|m]; try discriminate. destruct ts; try discriminate. destruct files; try discriminate.
  eapply two_targets; [exact Hf|reflexivity].
Qed.
Definition narrowb (e : ev) : bool :=
  match e with
  | existT _ o x =>
      match o return ans o -> bool with
      | OPkgGet _ _ => fun x => match x with Some (Some pk) => modestb pk | _ => true end
      | OPkgPut _ _ v => fun _ => match v with Some pk => modestb pk | None => true end
      | _ => fun _ => true
      end x
  end.
Lemma narrowb_ok : forall l, forallb narrowb l = true -> Forall (narrow 4 2) l.
Proof.
  intros l H. rewrite forallb_forall in H. apply Forall_forall. intros [o x] Hi. specialize (H _ Hi). destruct o; cbn in *; auto.
  - intros pk ->. apply modestb_ok, H.
  - intros pk ->. apply modestb_ok, H.
Qed.
Definition call70e (req : str) : prog answer := call_prog (CResolve R70e 9 (lit "/r") req).
Lemma ex70e : (o_browser (rv_opts R70e) = false /\ no_remap R70e (lit "/r") (r_target (parse (lit "p"))) /\ no_remap R70e (lit "/r") (r_target (parse (lit "#x"))) /\ length (o_main_fields (rv_opts R70e)) = 1) /\
  (forall req, In req [lit "p"; lit "#x"] -> Forall (shallow 4) (events (W t70e) (call70e req) st0) /\ Forall (narrow 4 2) (events (W t70e) (call70e req) st0) /\
    out (W t70e) st0 (call70e req) = Done (AResolve (Ok (RInfo (mkInfo (lit "/r/node_modules/p/m.js") (mkReq [] [] [] Relative)))))) /\
  work (W t70e) (call70e (lit "p")) st0 = 23 /\ work (W t70e) (call70e (lit "#x")) st0 = 27.
Proof.
  assert (H : forall D l, forallb (fun e : ev => match e with existT _ o _ => match o with OIsDir p => Nat.leb (length (components p)) D | _ => true end end) l = true -> Forall (shallow D) l).
  { intros D l H. rewrite forallb_forall in H. apply Forall_forall. intros [o x] Hi. specialize (H _ Hi). destruct o; cbn in *; auto. apply Nat.leb_le, H. }
  split; [|split; [|split; vm_compute; reflexivity]].
  - split; [reflexivity|]. split; [split; [left; reflexivity|split; [left; reflexivity|reflexivity]]|]. split; [split; [left; reflexivity|split; [left; reflexivity|reflexivity]]|reflexivity].
  - intros req [<-|[<-|[]]]; (split; [apply H; vm_compute; reflexivity|split; [apply narrowb_ok; vm_compute; reflexivity|vm_compute; reflexivity]]).
Qed.
