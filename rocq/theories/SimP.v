(** * Two resolutions in lockstep: one on a file system with a loader that answers at once, one
    against arbitrary admissible answers. *)
From Coq Require Import String.
From Coq Require Import List Arith NArith Bool Lia Permutation.
From Verif Require Import Str StrP Path PathP Json Types Parse Map Prog Desc Resolve Top Run Exec ExecP ApiP Posix SpecRun TsP SpecLoad SpecCache PosixP SpellP.
Import ListNotations.

Lemma ev_bind {A B} : forall fs (p : prog A) (f : A -> prog B), ev_fs fs (bind p f) =
  match ev_fs fs p with Done a => ev_fs fs (f a) | Panicked m => Panicked m | NoFuel => NoFuel end.
Proof. intros fs p f. induction p as [a|m| |o k IH]; cbn [bind ev_fs]; auto. Qed.

(** ** All outcomes under admissible answers *)
Section Wx.
Variable ok : forall o, ans o -> Prop.
Fixpoint wx {A} (Q : outcome A -> Prop) (p : prog A) : Prop :=
  match p with
  | Ret a => Q (Done a)
  | Panic m => Q (Panicked m)
  | OutOfFuel => Q NoFuel
  | Do o k => forall x, ok o x -> wx Q (k x)
  end.
Lemma wx_mono {A} : forall (p : prog A) (Q Q' : outcome A -> Prop), (forall r, Q r -> Q' r) -> wx Q p -> wx Q' p.
Proof. intros p Q Q' H. induction p as [a|m| |o k IH]; cbn [wx]; auto. Qed.
Lemma wx_bind {A B} : forall (p : prog A) (f : A -> prog B) (Q : outcome B -> Prop),
  wx (fun r => match r with Done a => wx Q (f a) | Panicked m => Q (Panicked m) | NoFuel => Q NoFuel end) p ->
  wx Q (bind p f).
Proof. intros p f Q. induction p as [a|m| |o k IH]; cbn [wx bind]; auto. Qed.
End Wx.

(** Related outcomes; the right side may run out of fuel (its loader needs some). *)
Definition orel {A B} (V : A -> B -> Prop) (l : outcome A) (r : outcome B) : Prop :=
  match r with
  | NoFuel => True
  | Done b => exists a, l = Done a /\ V a b
  | Panicked m => exists m', l = Panicked m' /\ respelled m' m
  end.

(** The other way round: the right side comes to the related end whenever the left side ends. *)
Definition orelT {A B} (V : A -> B -> Prop) (l : outcome A) (r : outcome B) : Prop :=
  match l with
  | NoFuel => True
  | Done a => exists b, r = Done b /\ V a b
  | Panicked m => exists m', r = Panicked m' /\ respelled m m'
  end.
Definition orel_ {A B} (tot : bool) : (A -> B -> Prop) -> outcome A -> outcome B -> Prop :=
  if tot then orelT else orel.
Lemma wx_all {A} : forall ok (p : prog A) (Q : outcome A -> Prop), (forall r, Q r) -> wx ok Q p.
Proof. intros ok p Q H. induction p as [a|m| |o k IH]; cbn [wx]; auto. Qed.

(** Operations that change no table. *)
Definition reads (o : op) : Prop :=
  match o with OPkgPut _ _ _ | OExpPut _ _ _ | OFilePut _ _ _ _ => False | _ => True end.

(** ** What "every outcome of the right side" may mean *)
Record modality := mkModality {
  (* the answers to expect *)
  md_ok : forall o, ans o -> Prop;
  md_go : forall A, (outcome A -> Prop) -> prog A -> Prop;
  (* the right side ends whenever the left side does, or the other way round *)
  md_tot : bool;
  md_done : forall A (Q : outcome A -> Prop) a, Q (Done a) -> md_go A Q (Ret a);
  md_panicked : forall A (Q : outcome A -> Prop) m, Q (Panicked m) -> md_go A Q (Panic m);
  md_nofuel : forall A (Q : outcome A -> Prop), Q NoFuel -> md_go A Q OutOfFuel;
  md_mono : forall A (p : prog A) (Q Q' : outcome A -> Prop), (forall r, Q r -> Q' r) -> md_go A Q p -> md_go A Q' p;
  md_bind : forall A B (p : prog A) (f : A -> prog B) (Q : outcome B -> Prop),
    md_go A (fun r => match r with Done a => md_go B Q (f a) | Panicked m => Q (Panicked m) | NoFuel => Q NoFuel end) p ->
    md_go B Q (bind p f);
  md_act : forall A (Q : outcome A -> Prop) o k, reads o -> (forall x, md_ok o x -> md_go A Q (k x)) -> md_go A Q (Do o k);
  md_all : md_tot = true -> forall A (p : prog A) (Q : outcome A -> Prop), (forall r, Q r) -> md_go A Q p
}.
Definition wxm (ok : forall o, ans o -> Prop) (tot : bool) : modality.
Proof.
  refine (mkModality ok (fun A => @wx ok A) tot _ _ _ (fun A => @wx_mono ok A) (fun A B => @wx_bind ok A B) _ (fun _ A => @wx_all A ok)); auto.
Defined.

Section Sim.
Variable fs : fsys.
Variable M : modality.
Notation ok := (md_ok M).
Notation tot := (md_tot M).
Definition sim {A B} (V : A -> B -> Prop) (pl : prog A) (pr : prog B) : Prop := md_go M _ (orel_ tot V (ev_fs fs pl)) pr.

Lemma sim_ret {A B} : forall (V : A -> B -> Prop) a b, V a b -> sim V (Ret a) (Ret b).
Proof. intros V a b H. apply md_done. unfold orel_. destruct tot; [exists b|exists a]; auto. Qed.
Lemma sim_panic {A B} : forall (V : A -> B -> Prop) m, sim V (Panic m) (Panic m).
Proof. intros V m. apply md_panicked. unfold orel_. destruct tot; exists m; (split; [reflexivity|apply respelled_refl]). Qed.
Lemma sim_fuel {A B} : forall (V : A -> B -> Prop), sim V OutOfFuel OutOfFuel.
Proof. intros. apply md_nofuel. unfold orel_. destruct tot; exact I. Qed.
Lemma sim_mono {A B} : forall (V V' : A -> B -> Prop) pl pr, (forall a b, V a b -> V' a b) -> sim V pl pr -> sim V' pl pr.
Proof.
  intros V V' pl pr H. apply md_mono. unfold orel_. destruct tot.
  - intros r. destruct (ev_fs fs pl) as [a|m|]; cbn; [|auto|auto]. intros (b & E & Hv). eauto.
  - intros [b|m|]; cbn; [|auto|auto]. intros (a & E & Hv). eauto.
Qed.
Lemma sim_bind {A B A' B'} : forall (V : A -> B -> Prop) (W : A' -> B' -> Prop) pl pr fl fr,
  sim V pl pr -> (forall a b, V a b -> sim W (fl a) (fr b)) -> sim W (bind pl fl) (bind pr fr).
Proof.
  intros V W pl pr fl fr H Hf. unfold sim in *. apply md_bind. rewrite ev_bind. eapply md_mono; [|exact H].
  clear H. unfold orel_ in *. pose proof (md_all M) as Hall. destruct tot.
  - intros r. destruct (ev_fs fs pl) as [a|m|]; cbn [orelT].
    + intros (b & -> & Hv). apply Hf. exact Hv.
    + intros (m' & -> & Hm). exists m'. auto.
    + intros _. destruct r as [b|m|]; try exact I. apply (Hall eq_refl). intros r. exact I.
  - intros [b|m|]; cbn [orel].
    + intros (a & -> & Hv). apply Hf. exact Hv.
    + intros (m' & -> & Hm). exists m'. auto.
    + auto.
Qed.
Lemma sim_lift {A} : forall (c : pcomp A), sim eq (lift c) (lift c).
Proof. intros [a|m|]; [apply sim_ret; reflexivity|apply sim_panic|apply sim_fuel]. Qed.
Lemma sim_lift_eq {A} : forall (c c' : pcomp A), c = c' -> sim eq (lift c) (lift c').
Proof. intros c c' ->. apply sim_lift. Qed.
Lemma sim_act {A B} : forall (V : A -> B -> Prop) o o' kl kr, reads o' ->
  (forall x, ok o' x -> sim V (kl (fs_ans fs o)) (kr x)) -> sim V (bind (act o) kl) (bind (act o') kr).
Proof. intros V o o' kl kr Hr H. unfold sim. cbn [act bind ev_fs]. apply md_act; assumption. Qed.

(** ** Relations between the values of the two sides *)
Definition iweak (i j : info) : Prop := i_req i = i_req j /\ same_path (i_path i) (i_path j).
Definition idle (t : str) : Prop := t = [] \/ t = s_dot.
Definition irel (i j : info) : Prop := iweak i j /\ (idle (r_target (i_req i)) -> same_tail (i_path i) (i_path j)).
Definition erel (e e' : str) : Prop := respelled e e' /\ (e = TAG <-> e' = TAG).
Definition srel_ (IR : info -> info -> Prop) (s s' : stats) : Prop :=
  match s, s' with
  | Success (RInfo i), Success (RInfo j) => i_req i = i_req j /\ same_tail (i_path i) (i_path j)
  | Success RIgnored, Success RIgnored => True
  | Resolving i, Resolving j => IR i j
  | SError e i, SError e' j => erel e e' /\ iweak i j
  | _, _ => False
  end.
Notation srel := (srel_ irel).

Lemma erel_refl : forall e, erel e e.
Proof. intros. split; [apply respelled_refl|tauto]. Qed.
Lemma irel_weak : forall i j, irel i j -> iweak i j. Proof. intros i j []; auto. Qed.
Lemma irel_same : forall i j, i_req i = i_req j -> same_tail (i_path i) (i_path j) -> irel i j.
Proof. intros i j H H'. split; [split; [exact H|apply same_tail_path, H']|auto]. Qed.
Lemma iweak_busy : forall i j, iweak i j -> ~ idle (r_target (i_req i)) -> irel i j.
Proof. intros i j H H'. split; [exact H|tauto]. Qed.
Lemma irel_refl : forall i, irel i i.
Proof. intros. apply irel_same; [reflexivity|apply same_tail_refl]. Qed.
Lemma get_path_tail : forall i j, irel i j -> same_tail (get_path i) (get_path j).
Proof.
  intros i j [[Hr Hp] Hs]. unfold get_path. rewrite <- Hr.
  destruct (str_eqb_spec (r_target (i_req i)) []) as [E|E]; cbn [orb].
  - apply Hs. left; exact E.
  - destruct (str_eqb_spec (r_target (i_req i)) s_dot) as [E'|E'].
    + apply Hs. right; exact E'.
    + apply same_tail_join. exact Hp.
Qed.
Lemma get_path_same : forall i j, iweak i j -> same_path (get_path i) (get_path j).
Proof.
  intros i j [Hr Hp]. unfold get_path. rewrite <- Hr.
  destruct (str_eqb (r_target (i_req i)) [] || str_eqb (r_target (i_req i)) s_dot)%bool; [exact Hp|].
  apply same_path_join. exact Hp.
Qed.
Lemma with_target_weak : forall i j t, iweak i j -> iweak (with_target i t) (with_target j t).
Proof. intros i j t [H1 H2]. split; [|exact H2]. cbn. rewrite H1. reflexivity. Qed.
Lemma dot_busy : forall t, ~ idle (lit "./" ++ t).
Proof. intros t [H|H]; discriminate. Qed.
Lemma with_target_dot : forall i j t, iweak i j -> irel (with_target i (lit "./" ++ t)) (with_target j (lit "./" ++ t)).
Proof. intros i j t H. apply iweak_busy; [apply with_target_weak, H|]. cbn [with_target i_req req_with_target r_target]. apply dot_busy. Qed.

(** ** The two resolvers, file systems and loaders *)
Variables R1 R2 : resolver.
Variables L1 L2 : path -> prog (result (option pkg)).
Variable aliasrel : pkg -> pkg -> Prop.

Hypothesis Hext : o_extensions (rv_opts R1) = o_extensions (rv_opts R2).
Hypothesis Henf : enforce R1 = enforce R2.
Hypothesis Halias : o_alias (rv_opts R1) = o_alias (rv_opts R2).
Hypothesis Hpref : o_prefer_relative (rv_opts R1) = o_prefer_relative (rv_opts R2).
Hypothesis Hsym : o_symlinks (rv_opts R1) = o_symlinks (rv_opts R2).
Hypothesis Hfiles : o_main_files (rv_opts R1) = o_main_files (rv_opts R2).
Hypothesis Hfields : o_main_fields (rv_opts R1) = o_main_fields (rv_opts R2).
Hypothesis Hdebug : rv_debug R1 = rv_debug R2.

Hypothesis Hfile : forall p q x, same_tail p q -> ok (OIsFile q) x -> x = f_file fs p.
Hypothesis Hnofile : forall p q x, same_path p q -> f_dir fs p = true -> ok (OIsFile q) x -> x = false.
Hypothesis Hdir : forall p q x, same_path p q -> ok (OIsDir q) x -> x = f_dir fs p.
Hypothesis Hexists : forall p q x, same_tail p q -> ok (OExists q) x -> x = f_exists fs p.
Hypothesis Hcanon : forall p q x, same_tail p q -> ok (OCanon q) x -> x = f_canon fs p.
Hypothesis Hkind : forall p, f_dir fs p = true -> f_file fs p = false.

(** Descriptions that cannot be told apart by the resolver. *)
Definition fieldrel (fk : field) (o o' : option ptn) : Prop :=
  match o, o' with
  | None, None => True
  | Some t, Some t' => forall req, field_process fk t req (o_conditions (rv_opts R1)) = field_process fk t' req (o_conditions (rv_opts R2))
  | _, _ => False
  end.
Record pkrel (pk pk' : pkg) : Prop := {
  pk_dir : same_path (p_dir pk) (p_dir pk');
  pk_isdir : f_dir fs (p_dir pk) = true;
  pk_name : p_name pk = p_name pk';
  pk_exp : fieldrel FExports (p_exports pk) (p_exports pk');
  pk_imp : fieldrel FImports (p_imports pk) (p_imports pk');
  pk_main : forall fld, In fld (o_main_fields (rv_opts R1)) -> opt_str (jget (p_raw pk) fld) = opt_str (jget (p_raw pk') fld);
  pk_alias : aliasrel pk pk'
}.
Definition okrel (o o' : option pkg) : Prop :=
  match o, o' with None, None => True | Some pk, Some pk' => pkrel pk pk' | _, _ => False end.
Definition lrel (r r' : result (option pkg)) : Prop :=
  match r, r' with Ok o, Ok o' => okrel o o' | Err e, Err e' => erel e e' | _, _ => False end.
Hypothesis Hload : forall p q, same_path p q -> sim lrel (L1 p) (L2 q).
Hypothesis Hbrowser : forall fuel pk pk' i j, aliasrel pk pk' -> same_path (p_dir pk) (p_dir pk') -> irel i j ->
  sim srel (alias_field_apply R1 fuel (Some pk) i) (alias_field_apply R2 fuel (Some pk') j).

Lemma sim_and_then : forall (IR IR' : info -> info -> Prop) pl pr fl fr, sim (srel_ IR) pl pr ->
  (forall i j, IR i j -> sim (srel_ IR') (fl i) (fr j)) -> sim (srel_ IR') (and_then pl fl) (and_then pr fr).
Proof.
  intros IR IR' pl pr fl fr H Hf. unfold and_then. eapply sim_bind; [exact H|].
  intros [[i|]|i|e i] [[j|]|j|e' j]; cbn [srel_]; try contradiction; intros Hv; try (apply sim_ret; exact Hv).
  apply Hf. exact Hv.
Qed.
Lemma sim_file : forall {A B} (V : A -> B -> Prop) p q kl kr, same_tail p q ->
  (f_file fs p = true -> sim V (kl true) (kr true)) -> (f_file fs p = false -> sim V (kl false) (kr false)) ->
  sim V (bind (act (OIsFile p)) kl) (bind (act (OIsFile q)) kr).
Proof.
  intros A B V p q kl kr H H1 H2. apply sim_act; [exact I|]. intros x Hx. apply (Hfile p q x H) in Hx. subst x. cbn [fs_ans].
  destruct (f_file fs p); auto.
Qed.

Lemma sim_extensions : forall exts p q i j, same_tail p q -> irel i j ->
  sim srel (extensions_loop p i exts) (extensions_loop q j exts).
Proof.
  induction exts as [|e exts IH]; intros p q i j Hp Hi; cbn [extensions_loop]; [apply sim_ret; exact Hi|].
  apply sim_file; [apply same_tail_app, Hp| |]; intros _; [|apply IH; assumption].
  apply sim_ret. destruct Hi as [[Hr _] _]. cbn [srel_ with_target with_path i_req i_path]. rewrite Hr.
  split; [reflexivity|apply same_tail_app, Hp].
Qed.
Lemma sim_as_file : forall i j, irel i j -> sim srel (resolve_as_file R1 i) (resolve_as_file R2 j).
Proof.
  intros i j H. pose proof (get_path_tail i j H) as Hp. unfold resolve_as_file. rewrite Henf.
  unfold extensions_apply. rewrite Hext. destruct (enforce R2); cbn [negb]; [apply sim_extensions; assumption|].
  apply sim_file; [exact Hp| |]; intros _; [|apply sim_extensions; assumption].
  apply sim_ret. destruct H as [[Hr _] _]. cbn [srel_ with_target with_path i_req i_path]. rewrite Hr. auto.
Qed.

Lemma sim_alias_field : forall fuel o o' i j, okrel o o' -> irel i j ->
  sim srel (alias_field_apply R1 fuel o i) (alias_field_apply R2 fuel o' j).
Proof.
  intros fuel [pk|] [pk'|] i j Ho Hi; cbn [okrel] in Ho; try contradiction.
  - apply Hbrowser; [apply Ho|apply Ho|exact Hi].
  - unfold alias_field_apply. destruct (negb _), (negb _); apply sim_ret; exact Hi.
Qed.

(** Checking a target inside the package directory: an idle target names the directory itself. *)
Lemma sim_file_in : forall {A B} (V : A -> B -> Prop) i j kl kr, iweak i j -> f_dir fs (i_path i) = true ->
  (irel i j -> sim V (kl true) (kr true)) -> sim V (kl false) (kr false) ->
  sim V (bind (act (OIsFile (get_path i))) kl) (bind (act (OIsFile (get_path j))) kr).
Proof.
  intros A B V i j kl kr Hw Hd H1 H2.
  assert (Hdec : idle (r_target (i_req i)) \/ ~ idle (r_target (i_req i))).
  { unfold idle. destruct (str_eq_dec (r_target (i_req i)) []), (str_eq_dec (r_target (i_req i)) s_dot); tauto. }
  destruct Hdec as [Hidle|Hbusy].
  - assert (Ei : get_path i = i_path i).
    { unfold get_path. destruct Hidle as [->|E]; [reflexivity|]. rewrite E, str_eqb_refl, orb_true_r. reflexivity. }
    apply sim_act; [exact I|]. intros x Hx. cbn [fs_ans].
    pose proof (get_path_same i j Hw) as Hsp. rewrite Ei in *.
    apply (Hnofile _ _ _ Hsp Hd) in Hx. subst x. rewrite (Hkind _ Hd). exact H2.
  - pose proof (iweak_busy i j Hw Hbusy) as Hi. apply sim_file; [apply get_path_tail, Hi| |]; intros _; auto.
Qed.
Lemma sim_exports_loop : forall pk pk' i j l, pkrel pk pk' -> iweak i j ->
  sim srel (exports_loop pk i l) (exports_loop pk' j l).
Proof.
  intros pk pk' i j l Hpk Hi. induction l as [|t l IH]; cbn [exports_loop].
  - apply sim_ret. destruct Hi as [Hr Hp]. rewrite Hr. split; [apply erel_refl|split; assumption].
  - apply sim_file_in.
    + split; [reflexivity|apply Hpk].
    + apply Hpk.
    + intros Hi'. cbn [i_req]. eapply sim_bind; [apply sim_lift|]. intros b b' <-. destruct b; [|exact IH].
      apply sim_ret. exact Hi'.
    + exact IH.
Qed.
Lemma resolve_self_eq : forall pk pk' i j, pkrel pk pk' -> iweak i j -> is_resolve_self pk i = is_resolve_self pk' j.
Proof. intros pk pk' i j H [Hr _]. unfold is_resolve_self. rewrite (pk_name _ _ H), Hr. reflexivity. Qed.
Lemma in_module_eq : forall pk pk', pkrel pk pk' -> contains (p_dir pk) MODULE = contains (p_dir pk') MODULE.
Proof. intros pk pk' H. apply contains_module. apply H. Qed.
Lemma sim_subpath : forall pk pk' i j, pkrel pk pk' -> iweak i j -> sim eq (exports_subpath pk i) (exports_subpath pk' j).
Proof.
  intros pk pk' i j Hpk [Hr Hp]. unfold exports_subpath. rewrite <- Hr.
  apply sim_bind with (V := eq).
  - destruct (starts_with_char _ _); [|apply sim_ret; reflexivity].
    destruct (find_char _ _) as [[? ?]|]; [apply sim_ret; reflexivity|apply sim_panic].
  - intros chars ? <-. destruct (find_char chars c_slash) as [[? ?]|]; [apply sim_ret; reflexivity|].
    apply sim_act; [exact I|]. intros x Hx. apply (Hexists _ _ _ (same_tail_join _ _ _ Hp)) in Hx. subst x. cbn [fs_ans].
    rewrite (pk_name _ _ Hpk). destruct (_ || _)%bool; apply sim_ret; reflexivity.
Qed.
Lemma remaining_eq : forall i j t, i_req i = i_req j -> exports_remaining i t = exports_remaining j t.
Proof. intros i j t H. unfold exports_remaining. rewrite H. reflexivity. Qed.
Lemma sim_exports : forall o o' i j, okrel o o' -> irel i j ->
  sim srel (exports_apply R1 o i) (exports_apply R2 o' j).
Proof.
  intros [pk|] [pk'|] i j Ho Hi; cbn [okrel] in Ho; try contradiction; cbn [exports_apply]; [|apply sim_ret; exact Hi].
  pose proof (irel_weak _ _ Hi) as Hw. pose proof Hw as [Hr _]. rewrite <- Hr.
  destruct (negb (kind_eqb _ _)); [apply sim_ret; exact Hi|].
  unfold is_in_module. rewrite <- (in_module_eq _ _ Ho), <- (resolve_self_eq _ _ _ _ Ho Hw).
  destruct (_ && _)%bool; [apply sim_ret; exact Hi|].
  pose proof (pk_exp _ _ Ho) as He. destruct (p_exports pk) as [t|], (p_exports pk') as [t'|]; cbn [fieldrel] in He; try contradiction.
  - eapply sim_bind; [apply sim_subpath; eassumption|]. intros sp ? <-. destruct sp as [sp|].
    + rewrite (remaining_eq i j sp Hr). eapply sim_bind; [apply sim_lift_eq, He|].
      intros l ? <-. destruct l as [l|e]; [apply sim_exports_loop; assumption|].
      apply sim_ret. split; [apply erel_refl|exact Hw].
    + apply sim_ret. split; [apply erel_refl|exact Hw].
  - apply sim_ret; exact Hi.
Qed.

Lemma sim_imports_check : forall i j t, irel i j \/ iweak i j /\ f_dir fs (i_path i) = true ->
  sim srel (imports_check i t) (imports_check j t).
Proof.
  intros i j t H. unfold imports_check.
  assert (Hw : iweak i j) by (destruct H as [H|[H _]]; [apply irel_weak, H|exact H]).
  assert (Hf : sim srel (Ret (SError (not_exported t) i)) (Ret (SError (not_exported t) j))).
  { apply sim_ret. split; [apply erel_refl|exact Hw]. }
  assert (Ht : irel i j -> sim srel (ok <- lift (check_target (r_target (i_req i))) ;; if ok then Ret (Resolving i) else Ret (SError (not_exported t) i))
    (ok <- lift (check_target (r_target (i_req j))) ;; if ok then Ret (Resolving j) else Ret (SError (not_exported t) j))).
  { intros Hi. destruct Hw as [Hr _]. rewrite <- Hr. eapply sim_bind; [apply sim_lift|]. intros b ? <-.
    destruct b; [apply sim_ret; exact Hi|exact Hf]. }
  destruct H as [Hi|[_ Hd]].
  - apply sim_file; [apply get_path_tail, Hi| |]; intros _; [apply Ht, Hi|exact Hf].
  - apply sim_file_in; [exact Hw|exact Hd| |]; auto.
Qed.
Lemma kind_busy : forall t, get_target_kind t = Internal -> ~ idle t.
Proof. intros t H [-> | ->]; discriminate. Qed.
Lemma sim_imports : forall fuel o o' i j, okrel o o' -> irel i j ->
  sim srel (imports_apply R1 L1 fuel o i) (imports_apply R2 L2 fuel o' j).
Proof.
  induction fuel as [|fuel IH]; intros o o' i j Ho Hi; cbn [imports_apply]; [apply sim_fuel|].
  destruct o as [pk|], o' as [pk'|]; cbn [okrel] in Ho; try contradiction; [|apply sim_ret; exact Hi].
  pose proof (irel_weak _ _ Hi) as Hw. pose proof Hw as [Hr _]. rewrite <- Hr.
  destruct (negb _); [apply sim_ret; exact Hi|].
  pose proof (pk_imp _ _ Ho) as He. destruct (p_imports pk) as [t|], (p_imports pk') as [t'|]; cbn [fieldrel] in He; try contradiction.
  2: apply sim_ret; exact Hi.
  eapply sim_bind; [apply sim_lift_eq, He|]. intros l ? <-.
  destruct l as [[|item l]|e]; [| |apply sim_ret; split; [apply erel_refl|exact Hw]].
  { apply sim_ret. split; [apply erel_refl|exact Hw]. }
  assert (Hk : r_kind (parse item) = get_target_kind (r_target (parse item))).
  { unfold parse. destruct (parse_identifier item) as [[? ?] ?]. reflexivity. }
  assert (Hrel : sim srel (imports_check (mkInfo (p_dir pk) (parse item)) (r_target (i_req i)))
                     (imports_check (mkInfo (p_dir pk') (parse item)) (r_target (i_req i)))).
  { apply sim_imports_check. right. split; [split; [reflexivity|apply Ho]|apply Ho]. }
  destruct (r_kind (parse item)) eqn:Ek; try exact Hrel.
  - apply IH; [exact Ho|]. apply iweak_busy; [split; [reflexivity|apply Ho]|]. apply kind_busy. symmetry. exact Hk.
  - set (i' := mkInfo (join (p_dir pk) MODULE) (parse item)). set (j' := mkInfo (join (p_dir pk') MODULE) (parse item)).
    assert (Hi' : irel i' j') by (apply irel_same; [reflexivity|apply same_tail_join, Ho]).
    eapply sim_bind; [apply Hload, get_path_same, irel_weak, Hi'|].
    intros [o1|e] [o1'|e'] Hl; cbn [lrel] in Hl; try contradiction;
      [|apply sim_ret; split; [exact Hl|apply irel_weak, Hi']].
    assert (Hc : sim srel
      (and_then (and_then (and_then (exports_apply R1 o1 i') (imports_apply R1 L1 fuel o1)) (alias_field_apply R1 (S fuel) o1))
         (fun i2 => imports_check i2 (r_target (i_req i))))
      (and_then (and_then (and_then (exports_apply R2 o1' j') (imports_apply R2 L2 fuel o1')) (alias_field_apply R2 (S fuel) o1'))
         (fun i2 => imports_check i2 (r_target (i_req i))))).
    { eapply sim_and_then; [|intros a b Hab; apply sim_imports_check; left; exact Hab].
      eapply sim_and_then; [|intros a b Hab; apply sim_alias_field; [exact Hl|exact Hab]].
      eapply sim_and_then; [|intros a b Hab; apply IH; [exact Hl|exact Hab]].
      apply sim_exports; assumption. }
    destruct o1 as [q|], o1' as [q'|]; cbn [okrel] in Hl; try contradiction.
    + rewrite <- (in_module_eq _ _ Hl). destruct (negb _); [|exact Hc]. apply sim_ret. exact Hi'.
    + exact Hc.
Qed.

Lemma sim_extract : forall s s', srel s s' -> is_success s = false ->
  sim iweak (extract_info s) (extract_info s').
Proof.
  intros [[i|]|i|e i] [[j|]|j|e' j] H Hs; cbn [srel_] in H; try contradiction; try discriminate; cbn [extract_info]; apply sim_ret.
  - apply irel_weak, H.
  - apply H.
Qed.
Lemma success_eq : forall IR s s', srel_ IR s s' -> is_success s = is_success s'.
Proof. intros IR [[i|]|i|e i] [[j|]|j|e' j] H; cbn [srel_] in H; try contradiction; reflexivity. Qed.

Lemma sim_main_field_loop : forall rad1 rad2 fuel pk pk' i j fields mi mj, pkrel pk pk' ->
  (forall a b, irel a b -> sim srel (rad1 a) (rad2 b)) -> irel i j -> iweak mi mj ->
  incl fields (o_main_fields (rv_opts R1)) ->
  sim srel (main_field_loop R1 rad1 fuel pk i fields mi) (main_field_loop R2 rad2 fuel pk' j fields mj).
Proof.
  intros rad1 rad2 fuel pk pk' i j fields. induction fields as [|fld fields IH]; intros mi mj Hpk Hrad Hi Hm Hin;
    cbn [main_field_loop]; [apply sim_ret; exact Hi|].
  rewrite <- (pk_main _ _ Hpk fld) by (apply Hin; left; reflexivity).
  assert (Hin' : incl fields (o_main_fields (rv_opts R1))) by (intros x Hx; apply Hin; right; exact Hx).
  destruct (opt_str (jget (p_raw pk) fld)) as [main|]; [|apply IH; assumption].
  destruct (str_eqb main s_dot || str_eqb main (lit "./"))%bool; [apply sim_ret; exact Hi|].
  set (mi' := if starts_with main (lit "./") then with_target mi main else with_target mi (lit "./" ++ main)).
  set (mj' := if starts_with main (lit "./") then with_target mj main else with_target mj (lit "./" ++ main)).
  assert (Hmm : irel mi' mj').
  { subst mi' mj'. destruct (starts_with main (lit "./")) eqn:E; [|apply with_target_dot, Hm].
    apply starts_with_spec in E. destruct E as [r ->]. apply with_target_dot, Hm. }
  eapply sim_bind with (V := srel).
  - eapply sim_and_then; [|exact Hrad]. eapply sim_and_then; [|apply sim_as_file].
    apply sim_alias_field; [exact Hpk|exact Hmm].
  - intros s s' Hs. rewrite <- (success_eq _ _ _ Hs). destruct (is_success s) eqn:E; [apply sim_ret; exact Hs|].
    eapply sim_bind; [apply sim_extract; eassumption|]. intros a b Hab. apply IH; assumption.
Qed.
Lemma sim_main_field : forall rad1 rad2 fuel o o' i j, okrel o o' ->
  (forall a b, irel a b -> sim srel (rad1 a) (rad2 b)) -> irel i j ->
  sim srel (main_field_apply R1 rad1 fuel o i) (main_field_apply R2 rad2 fuel o' j).
Proof.
  intros rad1 rad2 fuel [pk|] [pk'|] i j Ho Hrad Hi; cbn [okrel] in Ho; try contradiction; cbn [main_field_apply];
    [|apply sim_ret; exact Hi].
  pose proof (irel_weak _ _ Hi) as [Hr Hp].
  rewrite <- (path_eqb_congr _ _ _ _ Hp (pk_dir _ _ Ho)). destruct (negb _); [apply sim_ret; exact Hi|].
  rewrite <- Hfields. apply sim_main_field_loop; auto.
  - split; assumption.
  - intros x Hx; exact Hx.
Qed.
Lemma sim_main_file_loop : forall fuel o o' i j files mi mj, okrel o o' -> irel i j -> iweak mi mj ->
  sim srel (main_file_loop R1 L1 fuel o i files mi) (main_file_loop R2 L2 fuel o' j files mj).
Proof.
  intros fuel o o' i j files. induction files as [|f files IH]; intros mi mj Ho Hi Hm; cbn [main_file_loop]; [apply sim_ret; exact Hi|].
  eapply sim_bind with (V := srel).
  - eapply sim_and_then; [|apply sim_as_file].
    eapply sim_and_then; [|intros a b Hab; apply sim_alias_field; eassumption].
    eapply sim_and_then; [|intros a b Hab; apply sim_imports; eassumption].
    apply sim_exports; [exact Ho|apply with_target_dot, Hm].
  - intros s s' Hs. rewrite <- (success_eq _ _ _ Hs). destruct (is_success s) eqn:E; [apply sim_ret; exact Hs|].
    eapply sim_bind; [apply sim_extract; eassumption|]. intros a b Hab. apply IH; assumption.
Qed.
Lemma sim_main_file : forall fuel o o' i j, okrel o o' -> irel i j ->
  sim srel (main_file_apply R1 L1 fuel o i) (main_file_apply R2 L2 fuel o' j).
Proof.
  intros fuel o o' i j Ho Hi. unfold main_file_apply. rewrite Hfiles. apply sim_main_file_loop; [exact Ho|exact Hi|].
  pose proof (irel_weak _ _ Hi) as [Hr Hp]. split; assumption.
Qed.
Lemma sim_as_dir : forall fuel i j, irel i j -> sim srel (resolve_as_dir R1 L1 fuel i) (resolve_as_dir R2 L2 fuel j).
Proof.
  induction fuel as [|fuel IH]; intros i j Hi; cbn [resolve_as_dir]; [apply sim_fuel|].
  pose proof (irel_weak _ _ Hi) as Hw. pose proof (get_path_tail _ _ Hi) as Hg. pose proof (same_tail_path _ _ Hg) as Hgp.
  apply sim_act; [exact I|]. intros x Hx. apply (Hdir _ _ _ Hgp) in Hx. subst x. cbn [fs_ans].
  destruct (negb _); [apply sim_ret; split; [apply erel_refl|exact Hw]|].
  eapply sim_bind; [apply Hload, Hgp|]. intros [o|e] [o'|e'] Hl; cbn [lrel] in Hl; try contradiction;
    [|apply sim_ret; split; assumption].
  eapply sim_and_then; [|intros a b Hab; apply sim_main_file; eassumption].
  apply sim_main_field; [exact Hl|exact IH|]. destruct Hw as [Hr _].
  apply irel_same; [cbn; rewrite Hr; reflexivity|exact Hg].
Qed.

Definition mrel (x y : stats + stats) : Prop :=
  match x, y with inl s, inl s' => srel s s' | inr s, inr s' => srel_ iweak s s' | _, _ => False end.
Lemma srel_weak : forall s s', srel s s' -> srel_ iweak s s'.
Proof.
  intros [[i|]|i|e i] [[j|]|j|e' j] H; cbn [srel_] in *; try contradiction; auto. apply irel_weak, H.
Qed.
Lemma sim_modules_level : forall fuel i j, iweak i j ->
  sim mrel (modules_level R1 L1 fuel i) (modules_level R2 L2 fuel j).
Proof.
  intros fuel i j Hw. pose proof Hw as [Hr Hp]. unfold modules_level. rewrite <- Hr.
  pose proof (same_tail_join _ _ MODULE Hp) as Hroot. set (r1 := join (i_path i) MODULE) in *. set (r2 := join (j.(i_path)) MODULE) in *.
  pose proof (same_tail_path _ _ Hroot) as Hrp.
  apply sim_act; [exact I|]. intros x Hx. apply (Hdir _ _ _ Hrp) in Hx. subst x. cbn [fs_ans].
  destruct (negb (f_dir fs r1)); [apply sim_ret; exact Hw|].
  destruct (module_name (r_target (i_req i))) as [mname|]; [|apply sim_panic].
  assert (Hmi : irel (mkInfo r1 (i_req i)) (mkInfo r2 (i_req i))) by (apply irel_same; [reflexivity|exact Hroot]).
  eapply sim_bind; [apply Hload, same_path_join, Hrp|].
  intros [o|e] [o'|e'] Hl; cbn [lrel] in Hl; try contradiction; [|apply sim_ret; split; assumption].
  assert (Hself : match o with Some pk => is_resolve_self pk (mkInfo r1 (i_req i)) | None => false end =
                  match o' with Some pk => is_resolve_self pk (mkInfo r2 (i_req i)) | None => false end).
  { destruct o, o'; cbn [okrel] in Hl; try contradiction; [|reflexivity]. apply resolve_self_eq; [exact Hl|apply irel_weak, Hmi]. }
  apply sim_act; [exact I|]. intros x Hx. apply (Hdir _ _ _ (same_path_join _ _ mname Hrp)) in Hx. subst x. cbn [fs_ans].
  rewrite <- Hself. destruct (_ && _)%bool.
  - eapply sim_bind; [apply sim_as_file, Hmi|]. intros s s' Hs. rewrite <- (success_eq _ _ _ Hs).
    destruct (is_success s); apply sim_ret; [apply srel_weak, Hs|exact Hw].
  - eapply sim_bind with (V := srel).
    + eapply sim_and_then; [|apply sim_as_dir]. eapply sim_and_then; [|apply sim_as_file].
      eapply sim_and_then with (IR := irel).
      * eapply sim_and_then; [|intros a b Hab; apply sim_imports; eassumption]. apply sim_exports; assumption.
      * intros a b Hab. apply sim_alias_field; [exact Hl|]. pose proof (irel_weak _ _ Hab) as [Hr' Hp'].
        rewrite <- Hr'. destruct (r_kind (i_req a)); try exact Hab. apply with_target_dot. split; assumption.
    + intros [r|a|e a] [r'|b|e' b] Hs; try (destruct r, r'; cbn [srel_] in Hs; contradiction); try (cbn [srel_] in Hs; contradiction);
        try (destruct r; cbn [srel_] in Hs; contradiction); try (destruct r'; cbn [srel_] in Hs; contradiction).
      * apply sim_ret. apply (srel_weak _ _ Hs).
      * apply sim_ret. apply (srel_weak (Resolving a) (Resolving b) Hs).
      * cbn [srel_] in Hs. destruct Hs as [He Hab]. pose proof (proj2 He) as Htag.
        destruct (str_eqb_spec e TAG), (str_eqb_spec e' TAG); try tauto; apply sim_ret; cbn [mrel srel_]; auto.
Qed.
Lemma sim_as_modules : forall fuel i j, iweak i j ->
  sim srel (resolve_as_modules R1 L1 fuel i) (resolve_as_modules R2 L2 fuel j).
Proof.
  assert (Hend : forall s s', srel_ iweak s s' ->
    sim srel (match s with Resolving i1 => Ret (SError TAG i1) | _ => Ret s end)
             (match s' with Resolving i1 => Ret (SError TAG i1) | _ => Ret s' end)).
  { intros [[a|]|a|e a] [[b|]|b|e' b] H; cbn [srel_] in H; try contradiction; apply sim_ret; try exact H.
    split; [apply erel_refl|exact H]. }
  induction fuel as [|fuel IH]; intros i j Hw; cbn [resolve_as_modules]; [apply sim_fuel|].
  eapply sim_bind; [apply sim_modules_level, Hw|].
  intros [s|s] [s'|s'] H; cbn [mrel] in H; try contradiction.
  - (* early return: an error *)
    apply sim_ret. exact H.
  - eapply sim_bind with (V := srel_ iweak); [|exact Hend].
    eapply sim_and_then; [apply sim_ret, H|]. intros a b Hab. pose proof (parent_same _ _ (proj2 Hw)) as Hpar.
    destruct (parent (i_path i)), (parent (i_path j)); try contradiction; [|apply sim_ret; exact Hab].
    eapply sim_mono; [apply srel_weak|]. apply IH. split; [apply Hab|exact Hpar].
Qed.

(** ** [_resolve] *)
(** The entry of a resolution: aliases may turn any target into an idle one. *)
Definition ientry (i j : info) : Prop :=
  irel i j /\ (o_alias (rv_opts R1) = [] \/ same_tail (i_path i) (i_path j)).
Lemma sim_alias_loop : forall rec1 rec2 i j l, (forall a b, ientry a b -> sim srel (rec1 a) (rec2 b)) ->
  iweak i j -> (l = [] \/ same_tail (i_path i) (i_path j)) ->
  sim (srel_ (fun a b => a = i /\ b = j)) (alias_loop rec1 i l) (alias_loop rec2 j l).
Proof.
  intros rec1 rec2 i j l Hrec Hw Hl. induction l as [|[from to] l IH]; cbn [alias_loop]; [apply sim_ret; split; reflexivity|].
  destruct Hl as [Hl|Ht]; [discriminate|]. specialize (IH (or_intror Ht)).
  pose proof Hw as [Hr _]. rewrite <- Hr. destruct (starts_with _ from); [|exact IH].
  destruct to as [t|]; [|apply sim_ret; exact I].
  destruct (_ || _)%bool; [exact IH|].
  eapply sim_bind with (V := srel).
  - apply Hrec. split; [apply irel_same; [reflexivity|exact Ht]|right; exact Ht].
  - intros s s' Hs. rewrite <- (success_eq _ _ _ Hs). destruct (is_success s) eqn:E; [|exact IH]. apply sim_ret.
    destruct s as [[a|]|a|e a], s' as [[b|]|b|e' b]; cbn [srel_] in *; try contradiction; try discriminate; auto.
Qed.
Lemma sim_prefer : forall rec1 rec2 i j, (forall a b, ientry a b -> sim srel (rec1 a) (rec2 b)) -> ientry i j ->
  sim srel (prefer_relative_apply R1 rec1 i) (prefer_relative_apply R2 rec2 j).
Proof.
  intros rec1 rec2 i j Hrec [Hi Ha]. pose proof (irel_weak _ _ Hi) as Hw. pose proof Hw as [Hr Hp].
  unfold prefer_relative_apply. rewrite <- Hr, Hpref. destruct (_ || _)%bool; [apply sim_ret; exact Hi|].
  destruct (o_prefer_relative (rv_opts R2)); [|apply sim_ret; exact Hi].
  eapply sim_bind with (V := srel).
  - apply Hrec. split; [|exact Ha]. apply iweak_busy; [split; [reflexivity|exact Hp]|]. cbn [i_req req_with_target r_target]. apply dot_busy.
  - intros s s' Hs. rewrite <- (success_eq _ _ _ Hs). destruct (is_success s) eqn:E; apply sim_ret; [exact Hs|exact Hi].
Qed.
Lemma sim_pkg_step : forall fuel i j, irel i j -> sim srel (pkg_step R1 L1 fuel i) (pkg_step R2 L2 fuel j).
Proof.
  intros fuel i j Hi. pose proof (irel_weak _ _ Hi) as Hw. pose proof Hw as [Hr Hp]. unfold pkg_step. rewrite <- Hr.
  eapply sim_bind.
  - apply Hload. destruct (r_kind (i_req i)); try (apply get_path_same; exact Hw). apply same_path_join, same_path_join, Hp.
  - intros [o|e] [o'|e'] Hl; cbn [lrel] in Hl; try contradiction; [|apply sim_ret; split; assumption].
    eapply sim_and_then; [apply sim_imports; eassumption|]. intros a b Hab. apply sim_alias_field; assumption.
Qed.
Lemma sim_final_step : forall fuel i j, irel i j -> sim srel (final_step R1 L1 fuel i) (final_step R2 L2 fuel j).
Proof.
  intros fuel i j Hi. pose proof (irel_weak _ _ Hi) as Hw. pose proof Hw as [Hr _]. unfold final_step. rewrite <- Hr.
  assert (Hp : sim srel (and_then (resolve_as_file R1 i) (resolve_as_dir R1 L1 fuel)) (and_then (resolve_as_file R2 j) (resolve_as_dir R2 L2 fuel))).
  { eapply sim_and_then; [apply sim_as_file, Hi|]. apply sim_as_dir. }
  destruct (r_kind (i_req i)); try exact Hp; apply sim_as_modules; exact Hw.
Qed.
Lemma respelled_failed : forall i j, iweak i j -> respelled (resolve_failed_message i) (resolve_failed_message j).
Proof.
  intros i j [Hr Hp]. unfold resolve_failed_message. rewrite <- Hr.
  exists (lit "Resolve '" ++ request_display (i_req i) ++ lit "' failed in '"), (lit "'"), (i_path i), (i_path j).
  rewrite <- !app_assoc. auto.
Qed.
Lemma sim_resolve_ : forall fuel i j, ientry i j -> sim srel (resolve_ R1 L1 fuel i) (resolve_ R2 L2 fuel j).
Proof.
  induction fuel as [|fuel IH]; intros i j He; cbn [resolve_]; [apply sim_fuel|].
  pose proof He as [Hi Ha]. pose proof (irel_weak _ _ Hi) as Hw. pose proof Hw as [Hr Hp].
  eapply sim_bind with (V := srel).
  - eapply sim_and_then; [|apply sim_final_step]. eapply sim_and_then; [|apply sim_pkg_step].
    eapply sim_and_then with (IR := fun a b => a = i /\ b = j).
    + unfold alias_apply. rewrite (contains_module _ _ Hp). destruct (contains (i_path j) MODULE); [apply sim_ret; split; reflexivity|].
      rewrite <- Halias. apply sim_alias_loop; [exact IH|exact Hw|exact Ha].
    + intros a b [-> ->]. apply sim_prefer; [exact IH|exact He].
  - intros [[a|]|a|e a] [[b|]|b|e' b] Hs; cbn [srel_] in Hs; try contradiction; try (apply sim_ret; exact Hs).
    + apply sim_panic.
    + apply sim_ret. destruct Hs as [[He1 He2] Hab]. cbn [srel_]. split; [|exact Hab].
      pose proof (failed_msg_not_tag i). pose proof (failed_msg_not_tag j).
      destruct (str_eqb_spec e TAG), (str_eqb_spec e' TAG); try tauto; split; auto; try tauto.
      apply respelled_failed, Hw.
Qed.

(** ** The end of [resolve] *)
Definition arel (r r' : result rresult) : Prop :=
  match r, r' with Ok a, Ok b => a = b | Err e, Err e' => erel e e' | _, _ => False end.
Lemma sim_finish : forall s s', srel s s' ->
  sim arel (match s with Success r => normalize_result R1 r | SError e _ => Ret (Err e) | Resolving _ => Panic p_unreachable end)
           (match s' with Success r => normalize_result R2 r | SError e _ => Ret (Err e) | Resolving _ => Panic p_unreachable end).
Proof.
  intros [[a|]|a|e a] [[b|]|b|e' b] H; cbn [srel_] in H; try contradiction.
  - destruct H as [Hr Ht]. cbn [normalize_result]. rewrite Hdebug, <- Hr. destruct (_ && _)%bool; [apply sim_panic|].
    unfold try_. unfold normalize_path. rewrite Hsym. destruct (o_symlinks (rv_opts R2)).
    + cbn [act bind]. apply (sim_act arel (OCanon (i_path a)) (OCanon (i_path b))
        (fun c => r <- match c with Some q => Ret (Ok q) | None => Ret (Err (lit "Path normalized failed")) end ;;
                  match r with Ok p => Ret (Ok (RInfo (with_path a p))) | Err e => Ret (Err e) end)
        (fun c => r <- match c with Some q => Ret (Ok q) | None => Ret (Err (lit "Path normalized failed")) end ;;
                  match r with Ok p => Ret (Ok (RInfo (with_path b p))) | Err e => Ret (Err e) end)); [exact I|].
      intros x Hx. apply (Hcanon _ _ _ Ht) in Hx. subst x. cbn [fs_ans].
      destruct (f_canon fs (i_path a)) as [q|]; cbn [bind]; apply sim_ret; [|apply erel_refl].
      cbn [arel]. unfold with_path. rewrite Hr. reflexivity.
    + cbn [bind]. apply sim_ret. cbn [arel]. unfold with_path. rewrite Hr, (normalize_same _ _ (same_tail_path _ _ Ht)). reflexivity.
  - apply sim_ret. reflexivity.
  - apply sim_panic.
  - apply sim_ret. apply H.
Qed.
Lemma sim_resolve : forall fuel base req, o_tsconfig (rv_opts R1) = None -> o_tsconfig (rv_opts R2) = None ->
  sim arel (resolve_with R1 L1 fuel base req) (resolve_with R2 L2 fuel base req).
Proof.
  intros fuel base req H1 H2. unfold resolve_with. rewrite H1, H2. eapply sim_bind; [apply sim_resolve_|apply sim_finish].
  split; [apply irel_refl|right; apply same_tail_refl].
Qed.

(** ** tsconfig *)
Section Ts.
Hypothesis Hread : forall p q x, same_tail p q -> ok (ORead q) x -> x = f_read fs p.
Hypothesis Hjsonc : rv_jsonc R1 = rv_jsonc R2.
Hypothesis Htsc : o_tsconfig (rv_opts R1) = o_tsconfig (rv_opts R2).

Lemma sim_panic_at {A B} : forall (V : A -> B -> Prop) a x y b, same_path x y -> sim V (Panic (a ++ x ++ b)) (Panic (a ++ y ++ b)).
Proof.
  intros V a x y b H. apply md_panicked. unfold orel_. destruct tot; [exists (a ++ y ++ b)|exists (a ++ x ++ b)]; (split; [reflexivity|apply respelled_at, H]).
Qed.
Definition jrel (r r' : result json) : Prop :=
  match r, r' with Ok a, Ok b => a = b | Err e, Err e' => erel e e' | _, _ => False end.
Lemma entry_tail : forall p q r, same_tail p q -> ientry (mkInfo p r) (mkInfo q r).
Proof. intros p q r H. split; [apply irel_same; [reflexivity|exact H]|right; exact H]. Qed.
Lemma erel_at : forall a x y b, same_path x y -> a ++ x ++ b <> TAG -> a ++ y ++ b <> TAG -> erel (a ++ x ++ b) (a ++ y ++ b).
Proof. intros a x y b H H1 H2. split; [apply respelled_at, H|]. split; intros; contradiction. Qed.
Lemma sim_parse_file : forall fuel p q, same_tail p q -> sim jrel (parse_file_to_value R1 L1 fuel p) (parse_file_to_value R2 L2 fuel q).
Proof.
  induction fuel as [|fuel IH]; intros p q Ht; cbn [parse_file_to_value]; [apply sim_fuel|].
  pose proof (same_tail_path _ _ Ht) as Hp.
  apply sim_act; [exact I|]. intros x Hx. apply (Hread _ _ _ Ht) in Hx. subst x. cbn [fs_ans].
  destruct (f_read fs p) as [s|]; [|apply sim_ret, erel_at; [exact Hp|discriminate..]].
  rewrite <- Hjsonc. destruct (rv_jsonc R1 s) as [e| |j].
  2:{ apply sim_panic_at, Hp. }
  1:{ apply sim_ret. cbn [jrel]. apply (erel_at (lit "Parse ") p q (lit " failed. Error: " ++ e)); [exact Hp|discriminate..]. }
  destruct (jget j (lit "extends")) as [[| | |ext| |]|]; try (apply sim_ret; reflexivity).
  pose proof (parent_same _ _ Hp) as Hpar.
  destruct (parent p) as [p'|] eqn:Ep, (parent q) as [q'|] eqn:Eq; try contradiction; [|apply sim_panic].
  pose proof (parent_tail _ _ _ _ Hp Ep Eq) as Hpt.
  eapply sim_bind; [apply sim_resolve_, entry_tail, Hpt|].
  intros [[a|]|a|e a] [[b|]|b|e' b] Hs; cbn [srel_] in Hs; try contradiction; try (apply sim_ret; reflexivity).
  - unfold try_. eapply sim_bind; [apply IH, get_path_tail, irel_same; apply Hs|].
    intros [r|e] [r'|e'] Hr; cbn [jrel] in Hr; try contradiction; apply sim_ret; [|exact Hr]. cbn [jrel]. rewrite Hr. reflexivity.
  - apply sim_ret. cbn [jrel]. split.
    + exists (ext ++ lit " had been ignored in "), [], p, q. rewrite <- !app_assoc, !app_nil_r. auto.
    + assert (Hn : forall r : path, ext ++ lit " had been ignored in " ++ r <> TAG).
      { intros r E. assert (Hin : In 32%N TAG) by (rewrite <- E; apply in_or_app; right; left; reflexivity).
        vm_compute in Hin. repeat (destruct Hin as [Hin|Hin]; [discriminate|]). contradiction. }
      split; intros E; exfalso; eapply Hn; exact E.
Qed.
Lemma sim_paths_loop : forall fuel star l, sim (fun x y => match x, y with None, None => True | Some s, Some s' => srel s s' | _, _ => False end)
  (ts_paths_loop R1 L1 fuel star l) (ts_paths_loop R2 L2 fuel star l).
Proof.
  intros fuel star l. induction l as [|p l IH]; cbn [ts_paths_loop]; [apply sim_ret; exact I|].
  eapply sim_bind; [apply sim_resolve_, entry_tail, same_tail_refl|].
  intros s s' Hs. rewrite <- (success_eq _ _ _ Hs). destruct (is_success s); [apply sim_ret; exact Hs|exact IH].
Qed.
(** What one entry does to the request. *)
Definition ts_star (k target : str) : pcomp (option str) :=
  if str_eqb k target then PRet (Some []) else match_star k target.
Lemma entries_skip : forall R L fuel i l, (forall k v, In (k, v) l -> ts_star k (r_target (i_req i)) = PRet None) ->
  forall l2, ts_entries_loop R L fuel i (l ++ l2) = ts_entries_loop R L fuel i l2.
Proof.
  intros R L fuel i l. induction l as [|[k v] l IH]; intros H l2; [reflexivity|]. cbn [app ts_entries_loop].
  pose proof (H k v (or_introl eq_refl)) as E. unfold ts_star in E. destruct (str_eqb k (r_target (i_req i))); [discriminate|].
  rewrite E. cbn [lift bind]. apply IH. intros k' v' Hin. apply (H k' v'). right. exact Hin.
Qed.
Lemma entries_hit : forall R L fuel i l1 k v l2 s, ts_star k (r_target (i_req i)) = PRet (Some s) ->
  (forall k' v', In (k', v') (l1 ++ l2) -> ts_star k' (r_target (i_req i)) = PRet None) ->
  ts_entries_loop R L fuel i (l1 ++ (k, v) :: l2) =
  bind (ts_paths_loop R L fuel s v) (fun x => match x with Some s => Ret s | None => resolve_ R L fuel i end).
Proof.
  intros R L fuel i l1 k v l2 s Hk Ho. rewrite entries_skip by (intros k' v' Hin; apply (Ho k' v'); apply in_or_app; auto).
  assert (E2 : ts_entries_loop R L fuel i l2 = resolve_ R L fuel i).
  { rewrite <- (app_nil_r l2) at 1. rewrite entries_skip; [reflexivity|]. intros k' v' Hin; apply (Ho k' v'); apply in_or_app; auto. }
  cbn [ts_entries_loop]. unfold ts_star in Hk. destruct (str_eqb k (r_target (i_req i))).
  - injection Hk as <-. cbn [bind]. rewrite E2. reflexivity.
  - rewrite Hk. cbn [lift bind]. rewrite E2. reflexivity.
Qed.
Definition one_pattern (target : str) (m : list (str * list str)) : Prop :=
  (forall k v, In (k, v) m -> exists o, ts_star k target = PRet o) /\
  (forall k v k' v' s s', In (k, v) m -> In (k', v') m -> ts_star k target = PRet (Some s) -> ts_star k' target = PRet (Some s') -> k = k').
Lemma clear_one : forall target m, clear_paths target m -> one_pattern target m.
Proof.
  intros target m [Hk Hu]. split.
  - intros k v Hin. unfold ts_star. destruct (str_eqb k target); [eauto|]. apply match_star_total, (Hk k v Hin).
  - intros k v k' v' s s' H H' E E'. eapply Hu; [exact H|exact H'| |]; unfold ts_star in E, E'.
    + destruct (str_eqb_spec k target) as [->|]; [left; reflexivity|]. right. exists s. apply match_star_sound, E.
    + destruct (str_eqb_spec k' target) as [->|]; [left; reflexivity|]. right. exists s'. apply match_star_sound, E'.
Qed.
Lemma sim_entries : forall fuel i j (m m1 m2 : list (str * list str)) abs, ientry i j -> NoDup (map fst m) ->
  one_pattern (r_target (i_req i)) m ->
  Permutation m m1 -> Permutation m m2 ->
  sim srel (ts_entries_loop R1 L1 fuel i (map (fun kv => (fst kv, map (join abs) (snd kv))) m1))
           (ts_entries_loop R2 L2 fuel j (map (fun kv => (fst kv, map (join abs) (snd kv))) m2)).
Proof.
  intros fuel i j m m1 m2 abs Hi Hn [Hok Hu] H1 H2.
  pose proof Hi as [[[Hr _] _] _].
  set (F := fun kv : str * list str => (fst kv, map (join abs) (snd kv))).
  set (isome := fun kv : str * list str => match ts_star (fst kv) (r_target (i_req i)) with PRet (Some _) => true | _ => false end).
  destruct (existsb isome m) eqn:Ex.
  - apply existsb_exists in Ex. destruct Ex as [[k v] [Hin Hk]]. unfold isome in Hk. cbn [fst] in Hk.
    destruct (ts_star k (r_target (i_req i))) as [[s|]| |] eqn:Es; try discriminate.
    assert (Hspl : forall mm, Permutation m mm -> exists a b, mm = a ++ (k, v) :: b /\
      forall k' v', In (k', v') (map F a ++ map F b) -> ts_star k' (r_target (i_req i)) = PRet None).
    { intros mm Hp. pose proof (Permutation_in _ Hp Hin) as Hin'. destruct (in_split _ _ Hin') as (a & b & ->). exists a, b. split; [reflexivity|].
      intros k' v' Hk'. rewrite <- map_app in Hk'. apply in_map_iff in Hk'. destruct Hk' as [[k2 v2] [E2 Hk2]]. unfold F in E2. cbn in E2. injection E2 as -> _.
      assert (Hin2 : In (k', v2) m).
      { eapply Permutation_in; [apply Permutation_sym, Hp|]. apply in_app_iff in Hk2. apply in_or_app. destruct Hk2; [left|right; right]; assumption. }
      destruct (Hok _ _ Hin2) as [[s2|] E2]; [|exact E2]. exfalso. assert (k' = k) as -> by (eapply Hu; eassumption).
      assert (Hnd : NoDup (map fst (a ++ (k, v) :: b))) by (eapply Permutation_NoDup; [apply Permutation_map, Hp|exact Hn]).
      rewrite map_app in Hnd. cbn [map fst] in Hnd. apply NoDup_remove_2 in Hnd. apply Hnd. rewrite <- map_app.
      apply in_map_iff. exists (k, v2). auto. }
    destruct (Hspl m1 H1) as (a & b & -> & Ha). destruct (Hspl m2 H2) as (a' & b' & -> & Ha').
    rewrite !map_app. cbn [map]. change (F (k, v)) with (k, map (join abs) v).
    rewrite (entries_hit R1 L1 fuel i _ k _ _ s Es Ha).
    rewrite Hr in Es, Ha'. rewrite (entries_hit R2 L2 fuel j _ k _ _ s Es Ha').
    eapply sim_bind; [apply sim_paths_loop|]. intros [s1|] [s2|] Hs; try contradiction; [apply sim_ret; exact Hs|].
    apply sim_resolve_. exact Hi.
  - assert (Hno : forall mm, Permutation m mm -> forall k v, In (k, v) (map F mm) -> ts_star k (r_target (i_req i)) = PRet None).
    { intros mm Hp k v Hk. apply in_map_iff in Hk. destruct Hk as [[k2 v2] [E2 Hk2]]. unfold F in E2. cbn in E2. injection E2 as -> _.
      pose proof (Permutation_in _ (Permutation_sym Hp) Hk2) as Hin. destruct (Hok _ _ Hin) as [[s|] E]; [|exact E].
      exfalso. assert (existsb isome m = true).
      { apply existsb_exists. exists (k, v2). split; [exact Hin|]. unfold isome. cbn [fst]. rewrite E. reflexivity. }
      congruence. }
    pose proof (Hno m1 H1) as N1. pose proof (Hno m2 H2) as N2. rewrite Hr in N2.
    pose proof (entries_skip R1 L1 fuel i _ N1 []) as E1. pose proof (entries_skip R2 L2 fuel j _ N2 []) as E2.
    rewrite app_nil_r in E1, E2.
    change (sim srel (ts_entries_loop R1 L1 fuel i (map F m1)) (ts_entries_loop R2 L2 fuel j (map F m2))).
    rewrite E1, E2. apply sim_resolve_. exact Hi.
Qed.
Lemma paths_nodup : forall l acc m, NoDup (map fst acc) -> paths_entries l acc = PRet m -> NoDup (map fst m).
Proof.
  induction l as [|[k v] l IH]; intros acc m Hn H; cbn [paths_entries] in H; [injection H as <-; exact Hn|].
  destruct (as_array v) as [a|]; [|discriminate]. destruct (all_strings a) as [t| |]; try discriminate. cbn [pbind] in H.
  eapply IH; [|exact H]. apply imap_insert_nodup, Hn.
Qed.
Lemma ts_nodup : forall j t m, ts_of_json j = PRet t -> ts_paths t = Some m -> NoDup (map fst m).
Proof.
  intros j t m H Hm. unfold ts_of_json in H. destruct (jget j (lit "compilerOptions")) as [o|]; [|injection H as <-; discriminate].
  match type of H with pbind ?X _ = _ => destruct X as [base| |]; try discriminate end. cbn [pbind] in H.
  destruct (jget o (lit "paths")) as [v|]; [|injection H as <-; discriminate].
  destruct (as_object v) as [l|]; [|discriminate]. destruct (paths_entries l []) as [m'| |] eqn:E; try discriminate.
  cbn [pbind] in H. injection H as <-. cbn in Hm. injection Hm as ->. eapply paths_nodup; [|exact E]. constructor.
Qed.
Lemma sim_tsconfig : forall fuel i j loc, ientry i j ->
  (forall c t m, ev_fs fs (parse_file_to_value R1 L1 fuel loc) = Done (Ok c) -> ts_of_json c = PRet t -> ts_paths t = Some m ->
     one_pattern (r_target (i_req i)) m) ->
  sim srel (resolve_with_tsconfig R1 L1 fuel i loc) (resolve_with_tsconfig R2 L2 fuel j loc).
Proof.
  intros fuel i j loc Hi Hclear. unfold resolve_with_tsconfig.
  eapply sim_bind with (V := fun r r' => jrel r r' /\ ev_fs fs (parse_file_to_value R1 L1 fuel loc) = Done r).
  { eapply md_mono; [|apply sim_parse_file, same_tail_refl]. unfold orel_. destruct tot.
    - intros r. destruct (ev_fs fs (parse_file_to_value R1 L1 fuel loc)) as [a|m|]; cbn [orelT]; auto. intros (b & E & Hv). exists b. auto.
    - intros [b|m|]; cbn [orel]; auto. intros (a & E & Hv). exists a. auto. }
  intros [c|e] [c'|e'] [Hc Hev]; cbn [jrel] in Hc; try contradiction.
  2:{ apply sim_ret. split; [exact Hc|]. apply irel_weak, Hi. }
  subst c'. eapply sim_bind with (V := fun a b => a = b /\ ts_of_json c = PRet a).
  { destruct (ts_of_json c) as [t|m|]; [apply sim_ret; auto|apply sim_panic|apply sim_fuel]. }
  intros t t' [<- Ht]. unfold create_match_list. destruct (parent loc) as [dir|]; [|apply sim_panic].
  destruct (ts_base t) as [base|]; [|apply sim_resolve_; exact Hi].
  destruct (ts_paths t) as [m|] eqn:Em; [|apply sim_resolve_; exact Hi].
  cbn [bind act]. apply (sim_act srel OOrder OOrder
     (fun seed => ts_entries_loop R1 L1 fuel i (map (fun kv => (fst kv, map (join (join dir base)) (snd kv))) (permute seed m)))
     (fun seed => ts_entries_loop R2 L2 fuel j (map (fun kv => (fst kv, map (join (join dir base)) (snd kv))) (permute seed m)))); [exact I|].
  intros seed _. apply (sim_entries _ _ _ m); [exact Hi|eapply ts_nodup; eassumption|eapply Hclear; eassumption|apply Permutation_sym, permute_perm..].
Qed.
Lemma sim_resolve_ts : forall fuel base req,
  (forall loc c t m, o_tsconfig (rv_opts R1) = Some loc -> ev_fs fs (parse_file_to_value R1 L1 fuel loc) = Done (Ok c) ->
     ts_of_json c = PRet t -> ts_paths t = Some m -> one_pattern (r_target (parse req)) m) ->
  sim arel (resolve_with R1 L1 fuel base req) (resolve_with R2 L2 fuel base req).
Proof.
  intros fuel base req Hclear. unfold resolve_with. rewrite <- Htsc.
  assert (He : ientry (mkInfo base (parse req)) (mkInfo base (parse req))) by (split; [apply irel_refl|right; apply same_tail_refl]).
  eapply sim_bind; [|apply sim_finish]. destruct (o_tsconfig (rv_opts R1)) as [loc|]; [|apply sim_resolve_; exact He].
  apply sim_tsconfig; [exact He|]. intros c t m. apply Hclear. reflexivity.
Qed.
End Ts.
End Sim.
