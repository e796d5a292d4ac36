(** * Descriptions that cannot be parsed, while the disk changes (C42)

    [run_moving] executes concurrent calls in any interleaving, and every step finds the disk as it then is.
    [broken_at js name near d fs]: on [fs] the directories [near] have no description file, and that of [d] is no JSON;
    [asked x p]: the call [x] asks for the description of [p] first; [reports x e]: it answers with the error [e]
    (SpecBroken.v). *)
From Coq Require Import String.
From Coq Require Import List Arith NArith Bool.
From Verif Require Import Str Path Json Types Parse Map Prog Desc Resolve Top Run Posix Demo SpecLoad SpecCache SpecDesc SpecBroken PropBrokenP.
Import ListNotations.

(** Wanted (false, see C42_errors_repeated_refuted and C42_made_refuted): the same for all calls during which the file cannot be
    parsed, whatever was on the disk before.  If it could not be parsed from the beginning, every call that ends reports it,
    although the file may be edited at any time and other calls may run meanwhile. *)
Theorem C42_moving_partial : forall js name p near d far calls sched seeds i x q, lineage p = near ++ d :: far ->
  Forall (fun e => sane_fs (fst e) /\ broken_at js name near d (fst e)) sched ->
  nth_error calls i = Some x -> asked x p -> rv_debug (call_resolver x) = false -> o_desc (rv_opts (call_resolver x)) = Some name ->
  rv_json (call_resolver x) = js -> Forall (fills js name (rv_cache (call_resolver x))) calls ->
  nth_error (fst (run_moving sched (empty_state seeds) (map call_prog calls))) i = Some q ->
  settled q = NoFuel \/ settled q = Done (reports x (parse_failed (join d name))).
Proof. exact fin_42. Qed.
Print Assumptions C42_moving_partial.
Example C42_moving_ex : lineage (lit "/r/d/a.js") = [lit "/r/d/a.js"; lit "/r/d"] ++ lit "/r" :: [lit "/"] /\
  Forall (fun e => sane_fs (fst e) /\ broken_at (rv_json R42) (lit "package.json") [lit "/r/d/a.js"; lit "/r/d"] (lit "/r") (fst e)) sched42 /\
  Forall (fills (rv_json R42) (lit "package.json") 0) calls42 /\
  map settled (fst (run_moving sched42 st0 (map call_prog calls42))) =
    map Done [AResolve (Err (lit "Parse /r/package.json failed")); ASide (Err (lit "Parse /r/package.json failed")); ASide (Err (lit "Parse /r/package.json failed"))].
Proof. exact ex42. Qed.

(** A description that cannot be parsed is made in a directory known to have none: it is reported once, then again there is
    none. *)
Theorem C42_made_refuted : exists fs fs' R p, o_desc (rv_opts R) = Some (lit "package.json") /\
  broken_at (rv_json R) (lit "package.json") [] p fs' /\
  fst (fst (run_history fs st0 (ECall (CSide R 40 p) :: EFs fs' :: map ECall [CSide R 40 p; CSide R 40 p]))) =
  map Done [ASide (Ok None); ASide (Err (parse_failed (join p (lit "package.json")))); ASide (Ok None)].
Proof. exact fin_42_made. Qed.
Print Assumptions C42_made_refuted.
