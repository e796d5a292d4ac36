(** * A path request is about the path it denotes (C69)

    [denotes] says which path a request asked from a directory stands for, [same_for] when two answers are the same up to
    the request that a message names (SpecDenote.v). *)
From Coq Require Import String.
From Coq Require Import List Arith NArith Bool.
From Verif Require Import Str Path Json Types Parse Map Prog Desc Resolve Top Run Posix Demo SpecRun SpecLoad SpecCache SpecJson SpecDenote PropCacheP PropDenoteP.
Import ListNotations.

(** Two requests that denote the same path, or the same name in two spellings of the same directory, get the same answer:
    after any two histories of calls on an unchanging disk, in release builds. *)
Theorem C69_denotes : forall fs, sane_fs fs -> forall js, (forall s j, js s = Some j -> wf_json j) ->
  forall nm, no_clash fs js nm -> forall R base req base' req' p p' q fr f f' h h' seeds seeds',
  client js nm R -> browser_clear fs js R ->
  Forall (fun c => client js nm (call_resolver c)) h -> Forall (fun c => client js nm (call_resolver c)) h' ->
  no_remap R base (r_target (parse req)) -> no_remap R base' (r_target (parse req')) ->
  denotes base req p q fr -> denotes base' req' p' q fr -> same_tail p p' ->
  same_outcome (same_for base req base' req')
    (out fs (snd (run_history fs (empty_state seeds) (map ECall h))) (call_prog (CResolve R f base req)))
    (out fs (snd (run_history fs (empty_state seeds') (map ECall h'))) (call_prog (CResolve R f' base' req'))).
Proof. exact fin_69. Qed.
Print Assumptions C69_denotes.
(** Three ways to ask for one file, with a browser field on the way; and two for one that does not exist. *)
Example C69_ex :
  (denotes (lit "/r/node_modules/p") (lit "./m?x") (lit "/r/node_modules/p/./m") (lit "?x") [] /\
   denotes (lit "/r/./node_modules") (lit "./p/m?x") (lit "/r/./node_modules/./p/m") (lit "?x") [] /\
   denotes (lit "/q") (lit "/r/node_modules/p/m?x") (lit "/r/node_modules/p/m") (lit "?x") [] /\
   same_tail (lit "/r/node_modules/p/./m") (lit "/r/./node_modules/./p/m") /\
   same_tail (lit "/r/node_modules/p/./m") (lit "/r/node_modules/p/m") /\
   Forall (fun br => no_remap Rc_b (fst br) (r_target (parse (snd br))))
     [(lit "/r/node_modules/p", lit "./m?x"); (lit "/r/./node_modules", lit "./p/m?x"); (lit "/q", lit "/r/node_modules/p/m?x")]) /\
  (out wc warm (call_prog (CResolve Rc_b 40 (lit "/r/node_modules/p") (lit "./m?x"))) = Pm /\
   out wc st0 (call_prog (CResolve Rc_b 40 (lit "/r/./node_modules") (lit "./p/m?x"))) = Pm /\
   out wc warm (call_prog (CResolve Rc_b 40 (lit "/q") (lit "/r/node_modules/p/m?x"))) = Pm /\
   out wc warm (call_prog (CResolve Rc_b 40 (lit "/r") (lit "./z"))) = Done (AResolve (Err (lit "Resolve './z' failed in '/r'"))) /\
   out wc warm (call_prog (CResolve Rc_b 40 (lit "/q") (lit "/r/z"))) = Done (AResolve (Err (lit "Resolve '/r/z' failed in '/q'")))).
Proof. exact ex69. Qed.

(** The same for concurrent calls, in any interleaving with any others: two threads that have ended agree. *)
Theorem C69_concurrent : forall fs, sane_fs fs -> forall js, (forall s j, js s = Some j -> wf_json j) ->
  forall nm, no_clash fs js nm -> forall l h sched seeds a b R f base req f' base' req' p p' q fr x y,
  Forall (fun c => client js nm (call_resolver c)) h -> Forall (fun c => client js nm (call_resolver c)) l -> browser_clear fs js R ->
  nth_error l a = Some (CResolve R f base req) -> nth_error l b = Some (CResolve R f' base' req') ->
  no_remap R base (r_target (parse req)) -> no_remap R base' (r_target (parse req')) ->
  denotes base req p q fr -> denotes base' req' p' q fr -> same_tail p p' ->
  nth_error (fst (run_sched fs sched (snd (run_history fs (empty_state seeds) (map ECall h))) (map call_prog l))) a = Some x ->
  nth_error (fst (run_sched fs sched (snd (run_history fs (empty_state seeds) (map ECall h))) (map call_prog l))) b = Some y ->
  same_outcome (same_for base req base' req') (settled x) (settled y).
Proof. exact fin_69_threads. Qed.
Print Assumptions C69_concurrent.
Example C69_concurrent_ex : map settled (fst (run_sched wc (rounds69 80) st0 (map call_prog l69))) =
  [Pm; Pm; Done (AResolve (Err (lit "Resolve './z' failed in '/r'"))); Done (AResolve (Err (lit "Resolve '/r/z' failed in '/q'")))].
Proof. exact ex69t. Qed.

(** Paths that are equal as paths are not enough: a slash at the end is kept, and extensions are put behind it. *)
Theorem C69_slash_refuted : exists fs js R base req req' p p' q f x e, sane_fs fs /\ R = new_resolver default_options 0 0 false js (jsc_of []) /\
  denotes base req p q f /\ denotes base req' p' q f /\ same_path p p' /\
  out fs (empty_state (fun _ => [])) (call_prog (CResolve R 40 base req)) = Done (AResolve (Ok x)) /\
  out fs (empty_state (fun _ => [])) (call_prog (CResolve R 40 base req')) = Done (AResolve (Err e)).
Proof. exact slash69. Qed.
Print Assumptions C69_slash_refuted.

(** Nor may ".." be taken away together with the name before it, as Node's path.resolve does: it is the parent of what a
    symbolic link leads to. *)
Theorem C69_dotdot_refuted : exists fs R x y, sane_fs fs /\ R = new_resolver default_options 0 0 false (js_of []) (jsc_of []) /\ f_dir fs (lit "/s/l") = true /\
  out fs (empty_state (fun _ => [])) (call_prog (CResolve R 40 (lit "/s/l") (lit "../x"))) = Done (AResolve (Ok x)) /\
  out fs (empty_state (fun _ => [])) (call_prog (CResolve R 40 (lit "/s") (lit "./x"))) = Done (AResolve (Ok y)) /\ x <> y.
Proof. exact dotdot69. Qed.
Print Assumptions C69_dotdot_refuted.
