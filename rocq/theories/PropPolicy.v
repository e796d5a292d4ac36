(** * Resolvers that are told the same (C73)

    [same_policy] (SpecPolicy.v): equal options and parsers, where enforce_extension left open counts as "no".  Caches and
    refresh periods may differ. *)
From Coq Require Import String.
From Coq Require Import List Arith NArith Bool.
From Verif Require Import Str Path Json Types Parse Map Prog Desc Resolve Top Run Posix Demo WitnessP SpecRun SpecLoad SpecCache SpecJson SpecTime SpecPolicy PropCacheP PropPolicyP.
Import ListNotations.

(** On an unchanging disk they give the same answers, whatever calls were made before on either. *)
Theorem C73_policy : forall fs, sane_fs fs -> forall js, (forall s j, js s = Some j -> wf_json j) -> forall nm, no_clash fs js nm ->
  forall c R' h1 h2 seeds1 seeds2 f1 f2, client js nm (call_resolver c) -> client js nm R' -> same_policy (call_resolver c) R' ->
  Forall (fun c => client js nm (call_resolver c)) h1 -> Forall (fun c => client js nm (call_resolver c)) h2 -> steady fs js c ->
  same_outcome same_answer
    (out fs (snd (run_history fs (empty_state seeds1) (map ECall h1))) (call_prog (with_fuel c f1)))
    (out fs (snd (run_history fs (empty_state seeds2) (map ECall h2))) (call_prog (with_fuel (asked c R') f2))).
Proof. exact fin_73. Qed.
Print Assumptions C73_policy.
Example C73_ex : (same_policy (default_resolver 0 0 false (js_of T40) (jsc_of [])) (new_resolver default_options 1 1 false (js_of T40) (jsc_of [])) /\
  gives (out (w40 "A" (seconds 1)) st0 (call_prog (CResolve (default_resolver 0 0 false (js_of T40) (jsc_of [])) 40 (lit "/") (lit "./r")))) "/r/a.js" /\
  gives (out (w40 "A" (seconds 1)) st0 (call_prog (CResolve (new_resolver default_options 1 1 false (js_of T40) (jsc_of [])) 40 (lit "/") (lit "./r")))) "/r/a.js")%string.
Proof. exact ex73. Qed.
(** The same for calls that run concurrently with others (perhaps with each other), interleaved in any way. *)
Theorem C73_concurrent : forall fs, sane_fs fs -> forall js, (forall s j, js s = Some j -> wf_json j) -> forall nm, no_clash fs js nm ->
  forall c R' l1 l2 h1 h2 sched1 sched2 seeds1 seeds2 f1 f2 k1 k2 x y, same_policy (call_resolver c) R' -> steady fs js c ->
  Forall (fun c => client js nm (call_resolver c)) h1 -> Forall (fun c => client js nm (call_resolver c)) h2 ->
  Forall (fun c => client js nm (call_resolver c)) l1 -> Forall (fun c => client js nm (call_resolver c)) l2 ->
  nth_error l1 k1 = Some (with_fuel c f1) -> nth_error l2 k2 = Some (with_fuel (asked c R') f2) ->
  nth_error (fst (run_sched fs sched1 (snd (run_history fs (empty_state seeds1) (map ECall h1))) (map call_prog l1))) k1 = Some x ->
  nth_error (fst (run_sched fs sched2 (snd (run_history fs (empty_state seeds2) (map ECall h2))) (map call_prog l2))) k2 = Some y ->
  same_outcome same_answer (settled x) (settled y).
Proof. exact fin_73_threads. Qed.
Print Assumptions C73_concurrent.
Example C73_concurrent_ex : (exists x y, fst (run_sched (w40 "A" (seconds 1)) (alternate 80) st0
    (map call_prog [CResolve (default_resolver 0 0 false (js_of T40) (jsc_of [])) 40 (lit "/") (lit "./r");
                    CResolve (new_resolver default_options 0 1 false (js_of T40) (jsc_of [])) 40 (lit "/") (lit "./r")])) = [x; y] /\
  gives (settled x) "/r/a.js" /\ gives (settled y) "/r/a.js")%string.
Proof. exact ex73t. Qed.
(** So [Resolver::default()] answers as [Resolver::new] does with the default options. *)
Theorem C73_default : forall fs, sane_fs fs -> forall js, (forall s j, js s = Some j -> wf_json j) -> forall nm, no_clash fs js nm ->
  forall jc k i k' i' h1 h2 seeds1 seeds2 f1 f2 base req, nm k = lit "package.json" -> nm k' = lit "package.json" ->
  Forall (fun c => client js nm (call_resolver c)) h1 -> Forall (fun c => client js nm (call_resolver c)) h2 ->
  same_outcome same_answer
    (out fs (snd (run_history fs (empty_state seeds1) (map ECall h1))) (call_prog (CResolve (default_resolver k i false js jc) f1 base req)))
    (out fs (snd (run_history fs (empty_state seeds2) (map ECall h2))) (call_prog (CResolve (new_resolver default_options k' i' false js jc) f2 base req))).
Proof. exact fin_73_default. Qed.
Print Assumptions C73_default.
(** While the disk changes they need not: the description is edited half a second after it was read. *)
Theorem C73_changing_refuted : exists fs fs' js jc base req p p',
  let h R := [ECall (CResolve R 40 base req); EFs fs'; ECall (CResolve R 40 base req)] in
  fst (fst (run_history fs st0 (h (default_resolver 0 0 false js jc)))) = map (fun p => Done (AResolve (Ok (RInfo (mkInfo p (mkReq [] [] [] Relative)))))) [p; p'] /\
  fst (fst (run_history fs st0 (h (new_resolver default_options 0 0 false js jc)))) = map (fun p => Done (AResolve (Ok (RInfo (mkInfo p (mkReq [] [] [] Relative)))))) [p; p] /\
  p <> p'.
Proof. exact fin_73_changing. Qed.
Print Assumptions C73_changing_refuted.
