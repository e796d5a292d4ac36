(** * Every operation of a resolution other than the loader's leaves the tables alone. *)
From Coq Require Import String.
From Coq Require Import List Arith NArith Bool Lia.
From Verif Require Import Str StrP Path PathP Json Types Parse Map Prog Desc Resolve Top Run SpecLoad SimP LoadP.
Import ListNotations.

(** The operations of a resolution outside the loader. *)
Definition queries (o : op) : Prop :=
  match o with OIsFile _ | OIsDir _ | OExists _ | ORead _ | OCanon _ | OOrder => True | _ => False end.
(** Those whose answer is no text. *)
Definition asks (o : op) : Prop := match o with ORead _ => False | _ => queries o end.
Lemma asks_queries : forall o, asks o -> queries o.
Proof. intros [] H; try exact I; contradiction. Qed.
Lemma queries_reads : forall o, queries o -> reads o.
Proof. intros [] H; try exact I; contradiction. Qed.
(** A property of programs that holds whatever is read, and is kept by sequencing. *)
Section Closed.
Variable P0 : forall A, prog A -> Prop.
Notation P p := (P0 _ p).
Hypothesis closed_ret : forall A (a : A), P (Ret a).
Hypothesis closed_panic : forall A m, P0 A (Panic m).
Hypothesis closed_fuel : forall A, P0 A OutOfFuel.
Hypothesis closed_bind : forall A B (p : prog A) (f : A -> prog B), P p -> (forall a, P (f a)) -> P (bind p f).
Hypothesis closed_act : forall o, asks o -> P (act o).
Lemma closed_lift {A} : forall c : pcomp A, P (lift c). Proof. intros [| |]; cbn [lift]; auto. Qed.
Lemma closed_try {A B} : forall (p : prog (result A)) (f : A -> prog (result B)), P p -> (forall a, P (f a)) -> P (try_ p f).
Proof. intros. unfold try_. apply closed_bind; [assumption|]. intros [a|e]; [auto|apply closed_ret]. Qed.
Lemma closed_and_then : forall p f, P p -> (forall i, P (f i)) -> P (and_then p f).
Proof. intros. unfold and_then. apply closed_bind; [assumption|]. intros [r|i|e i]; [apply closed_ret|auto|apply closed_ret]. Qed.
Lemma closed_extract : forall s, P (extract_info s).
Proof. intros s. unfold extract_info. destruct s as [[i|]|i|e i]; auto. Qed.

Ltac g1 := lazymatch goal with
  | |- P0 _ (Ret _) => apply closed_ret
  | |- P0 _ (Panic _) => apply closed_panic
  | |- P0 _ OutOfFuel => apply closed_fuel
  | |- P0 _ (lift _) => apply closed_lift
  | |- P0 _ (extract_info _) => apply closed_extract
  | |- P0 _ (act _) => apply closed_act; exact I
  | |- P0 _ (try_ _ _) => apply closed_try; [|intros ?]
  | |- P0 _ (and_then _ _) => apply closed_and_then; [|intros ?]
  | |- P0 _ (bind _ _) => apply closed_bind; [|intros ?]
  | |- P0 _ (let _ := _ in _) => cbv zeta
  | |- P0 _ (match ?x with _ => _ end) => destruct x
  | |- P0 _ _ => match goal with H : forall _, P0 _ _ |- _ => apply H end
  end.
Ltac g := repeat g1; auto.

Variable R : resolver.
Variable load : path -> prog (result (option pkg)).
Hypothesis Hload : forall p, P (load p).
(** Texts are read for the tsconfig only, and used as the parser understands them. *)
Hypothesis closed_text : forall A p (e : prog A) (k : jsonc_res -> prog A), P e -> (forall r, P (k r)) ->
  P (bind (act (ORead p)) (fun c => match c with None => e | Some s => k (rv_jsonc R s) end)).

Lemma closed_ext : forall p i l, P (extensions_loop p i l).
Proof. intros p i l. induction l as [|e l IH]; cbn [extensions_loop]; g. Qed.
Lemma closed_as_file : forall i, P (resolve_as_file R i).
Proof. intros i. unfold resolve_as_file, extensions_apply. g; apply closed_ext. Qed.
Lemma closed_afl : forall fuel pk i l, P (alias_field_loop R fuel pk i l).
Proof. intros fuel pk i l. induction l as [|[k v] l IH]; cbn [alias_field_loop]; g. Qed.
Lemma closed_af : forall fuel o i, P (alias_field_apply R fuel o i).
Proof. intros. unfold alias_field_apply. g. apply closed_afl. Qed.
Lemma closed_exl : forall pk i l, P (exports_loop pk i l).
Proof. intros pk i l. induction l as [|t l IH]; cbn [exports_loop]; g. Qed.
Lemma closed_sub : forall pk i, P (exports_subpath pk i).
Proof. intros. unfold exports_subpath. g. Qed.
Lemma closed_exports : forall o i, P (exports_apply R o i).
Proof. intros. unfold exports_apply. g; try apply closed_sub; try apply closed_exl. Qed.
Lemma closed_check : forall i t, P (imports_check i t).
Proof. intros. unfold imports_check. g. Qed.
Lemma closed_imports : forall fuel o i, P (imports_apply R load fuel o i).
Proof.
  induction fuel as [|f IH]; intros o i; cbn [imports_apply]; [apply closed_fuel|].
  g; try apply closed_exports; try apply closed_af; try apply closed_check; auto.
Qed.
Lemma closed_mfl : forall rad fuel pk i l mi, (forall i, P (rad i)) -> P (main_field_loop R rad fuel pk i l mi).
Proof.
  intros rad fuel pk i l mi H. revert mi. induction l as [|f l IH]; intros mi; cbn [main_field_loop]; g;
    try apply closed_af; try apply closed_as_file; auto.
Qed.
Lemma closed_mf : forall rad fuel o i, (forall i, P (rad i)) -> P (main_field_apply R rad fuel o i).
Proof. intros. unfold main_field_apply. g. apply closed_mfl; auto. Qed.
Lemma closed_mfil : forall fuel o i l mi, P (main_file_loop R load fuel o i l mi).
Proof.
  intros fuel o i l. induction l as [|f l IH]; intros mi; cbn [main_file_loop]; g;
    try apply closed_af; try apply closed_as_file; try apply closed_imports; try apply closed_exports; auto.
Qed.
Lemma closed_mfi : forall fuel o i, P (main_file_apply R load fuel o i).
Proof. intros. unfold main_file_apply. apply closed_mfil. Qed.
Lemma closed_dir : forall fuel i, P (resolve_as_dir R load fuel i).
Proof.
  induction fuel as [|f IH]; intros i; cbn [resolve_as_dir]; [apply closed_fuel|]. g; try apply closed_mfi. apply closed_mf. auto.
Qed.
Lemma closed_level : forall fuel i, P (modules_level R load fuel i).
Proof.
  intros. unfold modules_level. g; try apply closed_af; try apply closed_as_file; try apply closed_imports; try apply closed_exports; try apply closed_dir; auto.
Qed.
Lemma closed_modules : forall fuel i, P (resolve_as_modules R load fuel i).
Proof. induction fuel as [|f IH]; intros i; cbn [resolve_as_modules]; [apply closed_fuel|]. apply closed_bind; [apply closed_level|intros a]. g. Qed.
Lemma closed_al : forall rec i l, (forall i, P (rec i)) -> P (alias_loop rec i l).
Proof. intros rec i l H. induction l as [|[k v] l IH]; cbn [alias_loop]; g. Qed.
Lemma closed_resolve_ : forall fuel i, P (resolve_ R load fuel i).
Proof.
  induction fuel as [|f IH]; intros i; cbn [resolve_]; [apply closed_fuel|].
  apply closed_bind; [|intros a; g]. apply closed_and_then; [apply closed_and_then; [apply closed_and_then|]|].
  - unfold alias_apply. g. apply closed_al; auto.
  - intros. unfold prefer_relative_apply. g; auto.
  - intros. unfold pkg_step. g; try apply closed_imports; try apply closed_af; auto.
  - intros. unfold final_step. g; try apply closed_as_file; try apply closed_dir; try apply closed_modules.
Qed.
Lemma closed_parse : forall fuel l, P (parse_file_to_value R load fuel l).
Proof. induction fuel as [|f IH]; intros l; cbn [parse_file_to_value]; [apply closed_fuel|].
  match goal with |- P (bind _ (fun c => match c with None => ?e | Some s => match _ with JCErr x => @?a x | JCNone => ?b | JCVal j => @?d j end end)) =>
    apply (closed_text _ l e (fun r => match r with JCErr x => a x | JCNone => b | JCVal j => d j end)) end; [g|]. intros r. g; try apply closed_resolve_; auto. Qed.
Lemma closed_tpl : forall fuel s l, P (ts_paths_loop R load fuel s l).
Proof. intros fuel s l. induction l as [|p l IH]; cbn [ts_paths_loop]; g; apply closed_resolve_. Qed.
Lemma closed_tel : forall fuel i l, P (ts_entries_loop R load fuel i l).
Proof. intros fuel i l. induction l as [|[k v] l IH]; cbn [ts_entries_loop]; g; try apply closed_resolve_; try apply closed_tpl; auto. Qed.
Lemma closed_ts : forall fuel i l, P (resolve_with_tsconfig R load fuel i l).
Proof.
  intros. unfold resolve_with_tsconfig, create_match_list. g; try apply closed_parse; try apply closed_tel; auto.
Qed.
Lemma closed_resolve_text : forall fuel base req, P (resolve_with R load fuel base req).
Proof.
  intros. unfold resolve_with, normalize_result, normalize_path. g; try apply closed_ts; try apply closed_resolve_; auto.
Qed.
End Closed.
(** If all queries keep the property, the reading of texts does. *)
Lemma closed_resolve_with : forall P0 : forall A, prog A -> Prop, (forall A (a : A), P0 A (Ret a)) -> (forall A m, P0 A (Panic m)) -> (forall A, P0 A OutOfFuel) ->
  (forall A B (p : prog A) (f : A -> prog B), P0 A p -> (forall a, P0 B (f a)) -> P0 B (bind p f)) -> (forall o, queries o -> P0 _ (act o)) ->
  forall R load, (forall p, P0 _ (load p)) -> forall fuel base req, P0 _ (resolve_with R load fuel base req).
Proof.
  intros P0 H1 H2 H3 H4 H5 R load Hl fuel base req. apply (closed_resolve_text P0 H1 H2 H3 H4); [intros o Ho; apply H5, asks_queries, Ho|exact Hl|].
  intros A p e k He Hk. apply H4; [apply H5; exact I|]. intros [s|]; [apply Hk|exact He].
Qed.

Section G.
Variable ok : forall o, ans o -> Prop.
Variable put : op -> Prop.
Hypothesis Hput : forall o, reads o -> put o.
(** All operations are [put], as long as the answers are [ok]. *)
Fixpoint wgo {A} (Q : outcome A -> Prop) (p : prog A) : Prop :=
  match p with
  | Ret a => Q (Done a)
  | Panic m => Q (Panicked m)
  | OutOfFuel => Q NoFuel
  | Do o k => put o /\ forall x, ok o x -> wgo Q (k x)
  end.
Lemma wgo_mono {A} : forall (p : prog A) (Q Q' : outcome A -> Prop), (forall r, Q r -> Q' r) -> wgo Q p -> wgo Q' p.
Proof. intros p Q Q' H. induction p as [a|m| |o k IH]; cbn [wgo]; auto. intros [Ha Hk]. split; auto. Qed.
Lemma wgo_bind {A B} : forall (p : prog A) (f : A -> prog B) (Q : outcome B -> Prop),
  wgo (fun r => match r with Done a => wgo Q (f a) | Panicked m => Q (Panicked m) | NoFuel => Q NoFuel end) p ->
  wgo Q (bind p f).
Proof. intros p f Q. induction p as [a|m| |o k IH]; cbn [wgo bind]; auto. intros [Ha Hk]. split; auto. Qed.
Definition GG {A} (p : prog A) : Prop := wgo (fun _ => True) p.

Lemma GG_ret {A} : forall a : A, GG (Ret a). Proof. exact (fun _ => I). Qed.
Lemma GG_panic {A} : forall m, @GG A (Panic m). Proof. exact (fun _ => I). Qed.
Lemma GG_fuel {A} : @GG A OutOfFuel. Proof. exact I. Qed.
Lemma GG_lift {A} : forall c : pcomp A, GG (lift c). Proof. intros [| |]; exact I. Qed.
Lemma GG_bind {A B} : forall (p : prog A) (f : A -> prog B), GG p -> (forall a, GG (f a)) -> GG (bind p f).
Proof. intros p f Hp Hf. apply wgo_bind. eapply wgo_mono; [|exact Hp]. intros [a|m|] _; auto. apply Hf. Qed.
Lemma GG_act : forall o, reads o -> GG (act o).
Proof. intros o H. unfold GG. cbn [act wgo]. split; [apply Hput, H|auto]. Qed.
Lemma GG_try {A B} : forall (p : prog (result A)) (f : A -> prog (result B)), GG p -> (forall a, GG (f a)) -> GG (try_ p f).
Proof. intros. unfold try_. apply GG_bind; [assumption|]. intros [a|e]; [auto|apply GG_ret]. Qed.
Lemma GG_and_then : forall p f, GG p -> (forall i, GG (f i)) -> GG (and_then p f).
Proof. intros. unfold and_then. apply GG_bind; [assumption|]. intros [r|i|e i]; [apply GG_ret|auto|apply GG_ret]. Qed.
Lemma GG_extract : forall s, GG (extract_info s).
Proof. intros s. unfold extract_info. destruct s as [[i|]|i|e i]; exact I. Qed.

Lemma GG_resolve_with : forall R load, (forall p, GG (load p)) -> forall fuel base req, GG (resolve_with R load fuel base req).
Proof.
  intros R load. apply (closed_resolve_with (fun A => @GG A)).
  - intros A. apply GG_ret.
  - intros A. apply GG_panic.
  - intros A. apply GG_fuel.
  - intros A B. apply GG_bind.
  - intros o Ho. apply GG_act, queries_reads, Ho.
Qed.
End G.

(** ** With the guarantee of LoadP *)
Lemma reads_put_ok : forall fs js nm o, reads o -> put_ok fs js nm o.
Proof. intros fs js nm [] H; try exact I; contradiction. Qed.
Definition Gx fs js nm ex {A} (p : prog A) : Prop := wgx fs js nm ex (fun _ => True) p.
Notation G fs js nm := (Gx fs js nm True).
Lemma G_bind {A B} : forall fs js nm ex (p : prog A) (f : A -> prog B), Gx fs js nm ex p -> (forall a, Gx fs js nm ex (f a)) -> Gx fs js nm ex (bind p f).
Proof. intros fs js nm ex. exact (GG_bind (okx fs js nm ex) (put_ok fs js nm)). Qed.
Lemma G_try {A B} : forall fs js nm ex (p : prog (result A)) (f : A -> prog (result B)), Gx fs js nm ex p -> (forall a, Gx fs js nm ex (f a)) -> Gx fs js nm ex (try_ p f).
Proof. intros fs js nm ex. exact (GG_try (okx fs js nm ex) (put_ok fs js nm)). Qed.
Lemma G_resolve_with : forall fs js nm ex R load, (forall p, Gx fs js nm ex (load p)) -> forall fuel base req, Gx fs js nm ex (resolve_with R load fuel base req).
Proof. intros fs js nm ex. exact (GG_resolve_with (okx fs js nm ex) (put_ok fs js nm) (reads_put_ok fs js nm)). Qed.
