(** * More fuel never changes an outcome that was reached with less. *)
From Coq Require Import String.
From Coq Require Import List Arith NArith Bool Lia.
From Verif Require Import Str Path Json Types Parse Map Prog Desc Resolve Top Run Exec ExecP.
Import ListNotations.

(** [fle p q]: [q] behaves like [p] except where [p] runs out of fuel. *)
Inductive fle {A} : prog A -> prog A -> Prop :=
| FleFuel : forall q, fle OutOfFuel q
| FleRet : forall a, fle (Ret a) (Ret a)
| FlePanic : forall m, fle (Panic m) (Panic m)
| FleDo : forall o k k', (forall x, fle (k x) (k' x)) -> fle (Do o k) (Do o k').

Lemma fle_refl {A} : forall p : prog A, fle p p.
Proof. induction p; constructor; auto. Qed.
Lemma fle_bind {A B} : forall (p q : prog A) (f g : A -> prog B), fle p q -> (forall a, fle (f a) (g a)) ->
  fle (bind p f) (bind q g).
Proof. intros p q f g H Hf. induction H; cbn [bind]; try constructor; auto. Qed.
Lemma fle_bind_r {A B} : forall (p : prog A) (f g : A -> prog B), (forall a, fle (f a) (g a)) ->
  fle (bind p f) (bind p g).
Proof. intros. apply fle_bind; [apply fle_refl|auto]. Qed.
Lemma fle_try {A B} : forall (p q : prog (result A)) (f g : A -> prog (result B)), fle p q ->
  (forall a, fle (f a) (g a)) -> fle (try_ p f) (try_ q g).
Proof. intros. apply fle_bind; auto. intros [a|e]; [auto|apply fle_refl]. Qed.
Lemma fle_and_then : forall (p q : prog stats) (f g : info -> prog stats), fle p q ->
  (forall a, fle (f a) (g a)) -> fle (and_then p f) (and_then q g).
Proof. intros. apply fle_bind; auto. intros [a|i|e i]; [apply fle_refl|auto|apply fle_refl]. Qed.

Lemma fle_exec {A} : forall (p q : prog A), fle p q -> forall tr r, exec p tr r -> r <> NoFuel -> exec q tr r.
Proof.
  assert (Inv : forall (p : prog A) tr r, exec p tr r -> match p with
    | Ret a => tr = [] /\ r = Done a
    | Panic m => tr = [] /\ r = Panicked m
    | OutOfFuel => r = NoFuel
    | Do o k => exists x tr', tr = mkev o x :: tr' /\ exec (k x) tr' r
    end) by (intros p tr r []; eauto).
  induction 1 as [q|a|m|o k k' H IH]; intros tr r Hex Hr; auto.
  - apply Inv in Hex. contradiction.
  - apply Inv in Hex. destruct Hex as [x [tr' [-> Hex]]]. constructor. apply IH; auto.
Qed.
Lemma fle_run {A} : forall (p q : prog A), fle p q -> forall fs st, out fs st p <> NoFuel -> run fs q st = run fs p st.
Proof.
  unfold out. induction 1 as [q|a|m|o k k' H IH]; intros fs st; cbn [run]; auto.
  - intros Hn. contradiction Hn. reflexivity.
  - destruct (step fs st o) as [x st']. apply IH.
Qed.

(** ** The functions of the crate are monotone in their fuel *)
Lemma find_up_fle : forall f f' p n, f <= f' -> fle (find_up f p n) (find_up f' p n).
Proof.
  induction f as [|f IH]; intros f' p n Hf; [constructor|]. destruct f' as [|f']; [lia|]. cbn [find_up].
  apply fle_bind_r. intros [|]; [constructor|]. destruct (parent p); [|constructor]. apply IH. lia.
Qed.
Lemma none_loop_fle : forall R f f' p, f <= f' -> fle (none_loop R f p) (none_loop R f' p).
Proof.
  induction f as [|f IH]; intros f' p Hf; [constructor|]. destruct f' as [|f']; [lia|]. cbn [none_loop].
  apply fle_bind_r. intros [|].
  - apply fle_bind_r. intros _. destruct (parent p); [|constructor]. apply IH. lia.
  - apply IH. lia.
Qed.
Lemma load_fle : forall R f f' p, f <= f' -> fle (load_pkg_file R f p) (load_pkg_file R f' p).
Proof.
  induction f as [|f IH]; intros f' p Hf; [constructor|]. destruct f' as [|f']; [lia|]. cbn [load_pkg_file].
  destruct (o_desc (rv_opts R)) as [name|]; [|constructor].
  apply fle_bind_r. intros [|]; cbn [negb].
  - apply fle_bind_r. intros [v|]; [apply fle_refl|]. apply fle_bind_r. intros [|]; [apply fle_refl|].
    apply fle_bind; [apply find_up_fle; lia|]. intros [d|]; [apply IH; lia|apply none_loop_fle; lia].
  - destruct (parent p); [apply IH; lia|constructor].
Qed.

Definition ple {A} (p q : pcomp A) : Prop := p = PFuel \/ p = q.
Lemma ple_lift {A} : forall p q : pcomp A, ple p q -> fle (lift p) (lift q).
Proof. intros p q [-> | ->]; [constructor|apply fle_refl]. Qed.
Lemma chase_ple : forall f f' t af, f <= f' -> ple (chase f t af) (chase f' t af).
Proof.
  induction f as [|f IH]; intros f' t af Hf; [left; reflexivity|]. destruct f' as [|f']; [lia|]. cbn [chase].
  destruct t as [s|]; [|right; reflexivity]. destruct (imap_get af s); [apply IH; lia|right; reflexivity].
Qed.
Lemma alias_field_loop_fle : forall R f f' pk i l, f <= f' -> fle (alias_field_loop R f pk i l) (alias_field_loop R f' pk i l).
Proof.
  induction l as [|[k v] l IH]; intros Hf; cbn [alias_field_loop]; [constructor|].
  destruct (should_deal_alias R pk i k); [|apply IH, Hf].
  apply fle_bind; [apply ple_lift, chase_ple, Hf|intros; apply fle_refl].
Qed.
Lemma alias_field_fle : forall R f f' opk i, f <= f' -> fle (alias_field_apply R f opk i) (alias_field_apply R f' opk i).
Proof.
  intros R f f' opk i Hf. unfold alias_field_apply. destruct (negb _); [constructor|].
  destruct opk; [apply alias_field_loop_fle, Hf|constructor].
Qed.

Section Mono.
Variable R : resolver.
Variables load load' : path -> prog (result (option pkg)).
Hypothesis Hload : forall p, fle (load p) (load' p).

Lemma imports_fle : forall f f' opk i, f <= f' -> fle (imports_apply R load f opk i) (imports_apply R load' f' opk i).
Proof.
  induction f as [|f IH]; intros f' opk i Hf; [constructor|]. destruct f' as [|f']; [lia|]. cbn [imports_apply].
  destruct opk as [pk|]; [|constructor]. destruct (negb _); [constructor|].
  destruct (p_imports pk) as [root|]; [|constructor].
  apply fle_bind_r. intros [[|item l]|e]; try constructor.
  assert (Hn : fle (lp <- load (get_path (mkInfo (join (p_dir pk) MODULE) (parse item)));;
      match lp with
      | Ok opk' =>
          let cont := and_then (and_then (and_then (exports_apply R opk' (mkInfo (join (p_dir pk) MODULE) (parse item)))
            (imports_apply R load f opk')) (alias_field_apply R (S f) opk'))
            (fun i2 => imports_check i2 (r_target (i_req i))) in
          match opk' with
          | Some pk' => if negb (contains (p_dir pk') MODULE) then Ret (Resolving (mkInfo (join (p_dir pk) MODULE) (parse item))) else cont
          | None => cont
          end
      | Err e => Ret (SError e (mkInfo (join (p_dir pk) MODULE) (parse item)))
      end)
    (lp <- load' (get_path (mkInfo (join (p_dir pk) MODULE) (parse item)));;
      match lp with
      | Ok opk' =>
          let cont := and_then (and_then (and_then (exports_apply R opk' (mkInfo (join (p_dir pk) MODULE) (parse item)))
            (imports_apply R load' f' opk')) (alias_field_apply R (S f') opk'))
            (fun i2 => imports_check i2 (r_target (i_req i))) in
          match opk' with
          | Some pk' => if negb (contains (p_dir pk') MODULE) then Ret (Resolving (mkInfo (join (p_dir pk) MODULE) (parse item))) else cont
          | None => cont
          end
      | Err e => Ret (SError e (mkInfo (join (p_dir pk) MODULE) (parse item)))
      end)).
  { apply fle_bind; [apply Hload|]. intros [opk'|e]; [|constructor]. cbv zeta.
    assert (Hc : fle (and_then (and_then (and_then (exports_apply R opk' (mkInfo (join (p_dir pk) MODULE) (parse item)))
            (imports_apply R load f opk')) (alias_field_apply R (S f) opk'))
            (fun i2 => imports_check i2 (r_target (i_req i))))
      (and_then (and_then (and_then (exports_apply R opk' (mkInfo (join (p_dir pk) MODULE) (parse item)))
            (imports_apply R load' f' opk')) (alias_field_apply R (S f') opk'))
            (fun i2 => imports_check i2 (r_target (i_req i))))).
    { apply fle_and_then; [|intros; apply fle_refl].
      apply fle_and_then; [|intros; apply alias_field_fle; lia].
      apply fle_and_then; [apply fle_refl|intros; apply IH; lia]. }
    destruct opk' as [pk'|]; [|exact Hc]. destruct (negb _); [constructor|exact Hc]. }
  destruct (r_kind (parse item)); try apply fle_refl; [apply IH; lia|exact Hn].
Qed.
Lemma main_field_loop_fle : forall (rad rad' : info -> prog stats) f f' pk i l mi,
  (forall i, fle (rad i) (rad' i)) -> f <= f' ->
  fle (main_field_loop R rad f pk i l mi) (main_field_loop R rad' f' pk i l mi).
Proof.
  intros rad rad' f f' pk i l mi Hr Hf. revert mi. induction l as [|fl l IH]; intros mi; cbn [main_field_loop]; [constructor|].
  destruct (opt_str (jget (p_raw pk) fl)) as [m|]; [|apply IH].
  destruct (_ || _); [constructor|]. cbv zeta. apply fle_bind.
  - apply fle_and_then; [|exact Hr]. apply fle_and_then; [apply alias_field_fle, Hf|intros; apply fle_refl].
  - intros s. destruct (is_success s); [constructor|]. apply fle_bind_r. intros mi'. apply IH.
Qed.
Lemma main_file_loop_fle : forall f f' opk i l mi, f <= f' ->
  fle (main_file_loop R load f opk i l mi) (main_file_loop R load' f' opk i l mi).
Proof.
  intros f f' opk i l mi Hf. revert mi. induction l as [|fl l IH]; intros mi; cbn [main_file_loop]; [constructor|].
  apply fle_bind.
  - apply fle_and_then; [|intros; apply fle_refl].
    apply fle_and_then; [|intros; apply alias_field_fle, Hf].
    apply fle_and_then; [apply fle_refl|intros; apply imports_fle, Hf].
  - intros s. destruct (is_success s); [constructor|]. apply fle_bind_r. intros mi'. apply IH.
Qed.
Lemma as_dir_fle : forall f f' i, f <= f' -> fle (resolve_as_dir R load f i) (resolve_as_dir R load' f' i).
Proof.
  induction f as [|f IH]; intros f' i Hf; [constructor|]. destruct f' as [|f']; [lia|]. cbn [resolve_as_dir].
  apply fle_bind_r. intros [|]; cbn [negb]; [|constructor].
  apply fle_bind; [apply Hload|]. intros [opk|e]; [|constructor].
  apply fle_and_then.
  - unfold main_field_apply. destruct opk as [pk|]; [|constructor]. destruct (negb _); [constructor|].
    apply main_field_loop_fle; [|lia]. intros i'. apply IH. lia.
  - intros i'. unfold main_file_apply. apply main_file_loop_fle. lia.
Qed.
Lemma modules_level_fle : forall f f' i, f <= f' -> fle (modules_level R load f i) (modules_level R load' f' i).
Proof.
  intros f f' i Hf. unfold modules_level. apply fle_bind_r. intros [|]; cbn [negb]; [|constructor].
  destruct (module_name (r_target (i_req i))) as [m|]; [|constructor]. cbv zeta.
  apply fle_bind; [apply Hload|]. intros [opk|e]; [|constructor].
  apply fle_bind_r. intros md. destruct (_ && _); [apply fle_refl|].
  apply fle_bind; [|intros; apply fle_refl].
  apply fle_and_then; [|intros; apply as_dir_fle; lia].
  apply fle_and_then; [|intros; apply fle_refl].
  apply fle_and_then; [|intros; apply alias_field_fle; lia].
  apply fle_and_then; [apply fle_refl|intros; apply imports_fle; lia].
Qed.
Lemma as_modules_fle : forall f f' i, f <= f' -> fle (resolve_as_modules R load f i) (resolve_as_modules R load' f' i).
Proof.
  induction f as [|f IH]; intros f' i Hf; [constructor|]. destruct f' as [|f']; [lia|]. cbn [resolve_as_modules].
  apply fle_bind; [apply modules_level_fle; lia|]. intros [s|s]; [constructor|].
  apply fle_bind; [|intros; apply fle_refl].
  apply fle_and_then; [apply fle_refl|]. intros i1. destruct (parent (i_path i)); [apply IH; lia|constructor].
Qed.
Lemma alias_loop_fle : forall (rec rec' : info -> prog stats) i l, (forall i, fle (rec i) (rec' i)) ->
  fle (alias_loop rec i l) (alias_loop rec' i l).
Proof.
  intros rec rec' i l Hr. induction l as [|[from to] l IH]; cbn [alias_loop]; [constructor|].
  destruct (starts_with (r_target (i_req i)) from); [|exact IH]. destruct to as [t|]; [|constructor].
  destruct (_ || _); [exact IH|]. apply fle_bind; [apply Hr|]. intros s. destruct (is_success s); [constructor|exact IH].
Qed.
Lemma prefer_fle : forall (rec rec' : info -> prog stats) i, (forall i, fle (rec i) (rec' i)) ->
  fle (prefer_relative_apply R rec i) (prefer_relative_apply R rec' i).
Proof.
  intros rec rec' i Hr. unfold prefer_relative_apply. destruct (_ || _); [constructor|].
  destruct (o_prefer_relative (rv_opts R)); [|constructor]. apply fle_bind; [apply Hr|intros; apply fle_refl].
Qed.
Lemma resolve__fle : forall f f' i, f <= f' -> fle (resolve_ R load f i) (resolve_ R load' f' i).
Proof.
  induction f as [|f IH]; intros f' i Hf; [constructor|]. destruct f' as [|f']; [lia|]. cbn [resolve_].
  assert (Hr : forall i, fle (resolve_ R load f i) (resolve_ R load' f' i)) by (intros; apply IH; lia).
  apply fle_bind; [|intros; apply fle_refl].
  apply fle_and_then.
  - apply fle_and_then.
    + apply fle_and_then.
      * unfold alias_apply. destruct (contains _ _); [constructor|]. apply alias_loop_fle, Hr.
      * intros i1. apply prefer_fle, Hr.
    + intros i1. unfold pkg_step. apply fle_bind; [apply Hload|]. intros [opk|e]; [|constructor].
      apply fle_and_then; [apply imports_fle; lia|intros; apply alias_field_fle; lia].
  - intros i1. unfold final_step. destruct (r_kind (i_req i1));
      try (apply fle_and_then; [apply fle_refl|intros; apply as_dir_fle; lia]); apply as_modules_fle; lia.
Qed.
Lemma parse_file_fle : forall f f' loc, f <= f' -> fle (parse_file_to_value R load f loc) (parse_file_to_value R load' f' loc).
Proof.
  induction f as [|f IH]; intros f' loc Hf; [constructor|]. destruct f' as [|f']; [lia|]. cbn [parse_file_to_value].
  apply fle_bind_r. intros [s|]; [|constructor]. destruct (rv_jsonc R s) as [e| |j]; try constructor.
  destruct (jget j (lit "extends")) as [[]|]; try constructor.
  destruct (parent loc); [|constructor]. apply fle_bind; [apply resolve__fle; lia|].
  intros [[i|]|i|e i]; try constructor. apply fle_try; [apply IH; lia|intros; apply fle_refl].
Qed.
Lemma ts_paths_fle : forall f f' star l, f <= f' -> fle (ts_paths_loop R load f star l) (ts_paths_loop R load' f' star l).
Proof.
  intros f f' star l Hf. induction l as [|p l IH]; cbn [ts_paths_loop]; [constructor|].
  apply fle_bind; [apply resolve__fle, Hf|]. intros s. destruct (is_success s); [constructor|exact IH].
Qed.
Lemma ts_entries_fle : forall f f' i l, f <= f' -> fle (ts_entries_loop R load f i l) (ts_entries_loop R load' f' i l).
Proof.
  intros f f' i l Hf. induction l as [|[p ps] l IH]; cbn [ts_entries_loop]; [apply resolve__fle, Hf|].
  apply fle_bind_r. intros [star|]; [|exact IH].
  apply fle_bind; [apply ts_paths_fle, Hf|]. intros [s|]; [constructor|exact IH].
Qed.
Lemma resolve_with_fle : forall f f' base req, f <= f' -> fle (resolve_with R load f base req) (resolve_with R load' f' base req).
Proof.
  intros f f' base req Hf. unfold resolve_with. apply fle_bind; [|intros; apply fle_refl].
  destruct (o_tsconfig (rv_opts R)) as [loc|]; [|apply resolve__fle, Hf].
  unfold resolve_with_tsconfig. apply fle_bind; [apply parse_file_fle, Hf|]. intros [j|e]; [|constructor].
  apply fle_bind_r. intros t. apply fle_bind_r. intros l. apply ts_entries_fle, Hf.
Qed.
End Mono.

Lemma resolve_fle : forall R f f' base req, f <= f' -> fle (resolve R f base req) (resolve R f' base req).
Proof. intros. apply resolve_with_fle; [intros; apply load_fle; assumption|assumption]. Qed.
Lemma side_effects_fle : forall R f f' p, f <= f' -> fle (load_side_effects R f p) (load_side_effects R f' p).
Proof. intros. apply fle_try; [apply load_fle; assumption|intros; apply fle_refl]. Qed.
