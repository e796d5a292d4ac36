(** * Ending while the disk changes (C63)

    An endless schedule says for every step whose turn it is and how the disk then is (SpecEnd.v).  [fair sched i]: the [i]th
    thread has its turn again and again.  A call that ends on every disk alone may run for ever if the disk changes
    meanwhile; it comes to an end if the directories and the description files stay as they are. *)
From Coq Require Import String.
From Coq Require Import List Arith NArith Bool.
From Verif Require Import Str StrP Path Json Types Parse Map Prog Desc Resolve Top Run Posix Demo SpecRun SpecLoad SpecCache SpecJson SpecTerm SpecDesc SpecEnd PosixP PropCacheP PropChangeP PropTermP EndP KeepP PropEndP.
Import ListNotations.

(** One change: after six steps the directory "a" is replaced by the file "a.js".  On either disk the call ends;
    but when the directory goes away after the search for description files
    and before the result is noted, the loop that notes it never gets past the missing directory. *)
Theorem C63_ends_refuted : exists (d d' : fsys) R base req k, sane_fs d /\ sane_fs d' /\ (exists js jc, R = new_resolver dflt 0 0 false js jc) /\ is_abs base = true /\
  (forall f, 40 <= f -> out d st0 (call_prog (CResolve R f base req)) <> NoFuel /\ out d' st0 (call_prog (CResolve R f base req)) <> NoFuel) /\
  forall f, never_finishes (fun n => (if Nat.ltb n k then d else d', 0)) st0 [CResolve R f base req] 0.
Proof. exact C63_refuted_p. Qed.
Print Assumptions C63_ends_refuted.
(** With the directories unchanged: a description file that is there whenever it is searched for from below and not there
    when it is to be read. *)
Theorem C63_flicker_refuted : exists (disk : nat -> fsys) R p, (forall n, sane_fs (disk n)) /\ (exists js jc, R = new_resolver dflt 0 0 false js jc) /\ is_abs p = true /\
  (forall n q, f_dir (disk n) q = f_dir (disk 0) q) /\
  forall f, never_finishes (fun n => (disk n, 0)) st0 [CSide R f p] 0.
Proof. exact C63_flicker_p. Qed.
Print Assumptions C63_flicker_refuted.

(** Side-effects queries come to an end, from any tables and among any other calls, if in their own steps the directories
    and the places of the description files stay as they are (texts and times may change). *)
Theorem C63_side_partial : forall fs, sane_fs fs -> forall R name p, o_desc (rv_opts R) = Some name -> is_abs p = true ->
  forall f sched st l i, length (components p) + 2 <= f -> nth_error l i = Some (CSide R f p) -> fair sched i -> in_place fs name sched i ->
  finishes sched st l i.
Proof. exact fin_63_side. Qed.
Print Assumptions C63_side_partial.
(** Resolutions that use no description files and no tsconfig come to an end however the disk changes, from any tables and
    among any other calls, if aliases and preferred relative paths do not rewrite for ever. *)
Theorem C63_no_description_partial : forall R base req, o_desc (rv_opts R) = None -> o_tsconfig (rv_opts R) = None ->
  stops (rewritten (rv_opts R)) (r_target (parse req)) ->
  exists N, forall f sched st l i, N <= f -> nth_error l i = Some (CResolve R f base req) -> fair sched i -> finishes sched st l i.
Proof. exact fin_63_nodesc. Qed.
Print Assumptions C63_no_description_partial.
(** Under the conditions of C16 all calls without tsconfig come to an end if only files other than the description files
    change: such changes may happen at any moment, between the earlier calls ([h]) and in the middle of any of the
    concurrent ones ([l]).  The bound depends on the call alone. *)
Theorem C63_calm_partial : forall fs, sane_fs fs -> forall js, (forall s j, js s = Some j -> wf_json j) -> forall nm, no_clash fs js nm ->
  forall c, client js nm (call_resolver c) -> call_plain fs c -> o_tsconfig (rv_opts (call_resolver c)) = None ->
  exists N, forall f h seeds sched l i, N <= f -> calm_history nm fs h js -> Forall (fun c => client js nm (call_resolver c)) l ->
  nth_error l i = Some (with_fuel c f) -> fair sched i -> (forall n, calm nm fs (fst (sched n))) ->
  finishes sched (snd (run_history fs (empty_state seeds) h)) l i.
Proof. exact fin_63_calm. Qed.
Print Assumptions C63_calm_partial.

(** With a tsconfig, too, if in the steps of the call that file and all it extends ([keep], [call_kept]) stay as they are. *)
Theorem C63_kept_partial : forall fs, sane_fs fs -> forall js, (forall s j, js s = Some j -> wf_json j) -> forall nm, no_clash fs js nm ->
  forall keep c, client js nm (call_resolver c) -> call_kept nm keep fs c ->
  exists N, forall f h seeds sched l i, N <= f -> calm_history nm fs h js -> Forall (fun c => client js nm (call_resolver c)) l ->
  nth_error l i = Some (with_fuel c f) -> fair sched i -> (forall n, calm nm fs (fst (sched n))) -> (forall n, snd (sched n) = i -> kept keep fs (fst (sched n))) ->
  finishes sched (snd (run_history fs (empty_state seeds) h)) l i.
Proof. exact fin_63_kept. Qed.
Print Assumptions C63_kept_partial.
(** The condition can be read off the files: they extend one another by relative paths. *)
Theorem C63_kept_chain : forall fs nm (keep : path -> Prop) R f base req, sane_fs fs -> is_abs base = true -> modest fs R -> alias_flat (rv_opts R) ->
  (forall loc, o_tsconfig (rv_opts R) = Some loc -> exists l, chain fs R (loc :: l) /\ forall p q, In p (loc :: l) -> same_tail p q -> keep q) ->
  call_kept nm keep fs (CResolve R f base req).
Proof. exact fin_63_chain. Qed.
Print Assumptions C63_kept_chain.
(** Otherwise two tsconfig files may extend each other in turns: of each only the text changes, on either disk one of them
    extends nothing, and the call never ends. *)
Theorem C63_extends_refuted : exists (d d' : fsys) R base req (turn : nat -> bool), sane_fs d /\ sane_fs d' /\ (exists o js jc, R = new_resolver o 0 0 false js jc) /\ is_abs base = true /\
  calm (fun _ => lit "package.json") d d' /\
  (forall f, 40 <= f -> out d st0 (call_prog (CResolve R f base req)) <> NoFuel /\ out d' st0 (call_prog (CResolve R f base req)) <> NoFuel) /\
  forall f, never_finishes (fun n => (if turn n then d else d', 0)) st0 [CResolve R f base req] 0.
Proof. exact C63_extends_p. Qed.
Print Assumptions C63_extends_refuted.

(** The change of [C63_ends_refuted], and what the call gives on each disk alone. *)
Example C63_ends_ex : forall f, 40 <= f -> out w63a st0 (call_prog (CResolve R63 f (lit "/r") (lit "./a"))) = at_path "/r/a/index.js" /\
  out w63b st0 (call_prog (CResolve R63 f (lit "/r") (lit "./a"))) = at_path "/r/a.js".
Proof. exact ends63. Qed.
(** The disk of [C16_ex] whose file src/y.js is there in every other step only (and another file in the others). *)
Example C63_calm_ex : (sane_fs w16 /\ no_clash w16 (js_of T16) nmc /\ client (js_of T16) nmc R16 /\ call_plain w16 (c63 0) /\
    (forall n, calm nmc w16 (fst (disk16 n, 0))) /\ fair (fun n => (disk16 n, 0)) 0) /\
  out w16 st0 (call_prog (c63 40)) = at_path "/r/src/y.js" /\ out (W tree16b) st0 (call_prog (c63 40)) <> at_path "/r/src/y.js" /\
  exists N, forall f, N <= f -> finishes (fun n => (disk16 n, 0)) st0 [c63 f] 0.
Proof. exact C63_calm_ex_p. Qed.
(** A query during which the text of the description changes. *)
Example C63_side_ex : (sane_fs w63d /\ in_place w63d (lit "package.json") (fun n => (disk63s n, 0)) 0) /\
  finishes (fun n => (disk63s n, 0)) st0 [CSide R63s 10 (lit "/r/x/y")] 0 /\
  out w63d st0 (call_prog (CSide R63s 10 (lit "/r/x/y"))) <> out w63e st0 (call_prog (CSide R63s 10 (lit "/r/x/y"))).
Proof. exact C63_side_ex_p. Qed.
(** An alias, and no descriptions, on the disks of [C63_ends_refuted]. *)
Example C63_no_description_ex : o_desc (rv_opts R63n) = None /\ stops (rewritten (rv_opts R63n)) (r_target (parse (lit "@a"))) /\
  out w63a st0 (call_prog (CResolve R63n 40 (lit "/r") (lit "@a"))) = at_path "/r/a/index.js" /\
  out w63b st0 (call_prog (CResolve R63n 40 (lit "/r") (lit "@a"))) = at_path "/r/a.js" /\
  exists N, forall f, N <= f -> finishes (fun n => (disk63 n, 0)) st0 [CResolve R63n f (lit "/r") (lit "@a")] 0.
Proof. exact C63_no_description_ex_p. Qed.
(** A chain of three tsconfig files while a file they lead to comes and goes. *)
Example C63_kept_ex : call_kept nmc keep16 w16t (CResolve R16t 0 (lit "/r") (lit "@/y")) /\ (forall n, calm nmc w16t (disk16t n) /\ kept keep16 w16t (disk16t n)) /\
  out w16t st0 (call_prog (CResolve R16t 40 (lit "/r") (lit "@/y"))) <> out (W tree16tb) st0 (call_prog (CResolve R16t 40 (lit "/r") (lit "@/y"))) /\
  exists N, forall f, N <= f -> finishes (fun n => (disk16t n, 0)) st0 [CResolve R16t f (lit "/r") (lit "@/y")] 0.
Proof. exact C63_kept_ex_p. Qed.
(** The two disks of [C63_extends_refuted]. *)
Example C63_extends_ex : forall f, 40 <= f -> out w63t st0 (call_prog (CResolve R63t f (lit "/r") (lit "./x"))) = at_path "/r/x.js" /\
  out w63u st0 (call_prog (CResolve R63t f (lit "/r") (lit "./x"))) = at_path "/r/x.js".
Proof. exact ends63t. Qed.
