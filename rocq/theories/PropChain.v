(** * The work of following main fields (C70)

    [shallow D]: no directory with more than [D] components was asked for; [branches n f] = 1 + n + n^2 + ... with [f] terms
    (SpecChain.v). *)
From Coq Require Import String.
From Coq Require Import List Arith NArith Bool.
From Verif Require Import Str Path Json Types Parse Map Prog Desc Resolve Top Run Exec Posix Demo SpecRun SpecLoad SpecWork SpecChain PropChainP.
Import ListNotations.

(** Requests for paths, with descriptions but without rewriting: with one main field the work is linear in the bound [f] on
    nested steps (any [f] that is enough for the call will do), for any contents of the tables. *)
Theorem C70_main_field_partial : forall fs, sane_fs fs -> forall R f base req D tr o, o_browser (rv_opts R) = false -> no_remap R base (r_target (parse req)) ->
  path_request req -> is_abs base = true -> length (o_main_fields (rv_opts R)) <= 1 ->
  exec (call_prog (CResolve R f base req)) tr o -> Forall (from_disk fs) tr -> Forall (shallow D) tr ->
  length tr <= (1 + f) * (23 + 3 * D + (2 + length (o_main_files (rv_opts R))) * (1 + length (o_extensions (rv_opts R)))).
Proof. exact fin_70_one. Qed.
Print Assumptions C70_main_field_partial.
(** The same for a run. *)
Theorem C70_main_field_run_partial : forall fs, sane_fs fs -> forall R f base req D st, o_browser (rv_opts R) = false -> no_remap R base (r_target (parse req)) ->
  path_request req -> is_abs base = true -> length (o_main_fields (rv_opts R)) <= 1 ->
  Forall (shallow D) (events fs (call_prog (CResolve R f base req)) st) ->
  work fs (call_prog (CResolve R f base req)) st <= (1 + f) * (23 + 3 * D + (2 + length (o_main_files (rv_opts R))) * (1 + length (o_extensions (rv_opts R)))).
Proof. exact fin_70_run. Qed.
Print Assumptions C70_main_field_run_partial.
(** On the trees of [C70_nested_refuted], where two main fields double the work with each directory. *)
Example C70_main_field_ex : (o_browser (rv_opts R70one) = false /\ no_remap R70one (lit "/") (r_target (parse (lit "./d"))) /\ path_request (lit "./d") /\ length (o_main_fields (rv_opts R70one)) = 1) /\
  Forall (shallow 5) (events (W (deep 2)) (call70 8) st0) /\
  out (W (deep 2)) st0 (call70 8) = Done (AResolve (Ok (RInfo (mkInfo (lit "/d/index.js") (mkReq [] [] [] Relative))))) /\
  map (fun n => work (W (deep n)) (call70 (n + 6)) st0) [0; 1; 2; 3; 4; 5] = [39; 56; 73; 90; 107; 124].
Proof. exact ex70c. Qed.
(** With [n] main fields the work is at most that of [n] ways to go on from each directory. *)
Theorem C70_main_fields_partial : forall fs, sane_fs fs -> forall R f base req D tr o, o_browser (rv_opts R) = false -> no_remap R base (r_target (parse req)) ->
  path_request req -> is_abs base = true ->
  exec (call_prog (CResolve R f base req)) tr o -> Forall (from_disk fs) tr -> Forall (shallow D) tr ->
  length tr <= (1 + branches (length (o_main_fields (rv_opts R))) f) *
    (23 + 3 * D + (1 + length (o_main_fields (rv_opts R)) + length (o_main_files (rv_opts R))) * (1 + length (o_extensions (rv_opts R)))).
Proof. exact fin_70_chain. Qed.
Print Assumptions C70_main_fields_partial.

(** All requests, so also those for packages and imports, when the descriptions in play lie in directories with at most
    [D] components and their exports select at most [X] targets ([narrow D X]).  Missing is rewriting: alias and browser
    fields. *)
Theorem C70_packages_partial : forall fs, sane_fs fs -> forall R f base req D X tr o, o_browser (rv_opts R) = false -> no_remap R base (r_target (parse req)) ->
  is_abs base = true -> length (o_main_fields (rv_opts R)) <= 1 ->
  exec (call_prog (CResolve R f base req)) tr o -> Forall (from_disk fs) tr -> Forall (shallow D) tr -> Forall (narrow D X) tr ->
  length tr <= (length (components base) + D + 3) * (27 + 3 * D + X + length (o_extensions (rv_opts R)) +
    f * (47 + 6 * D + X + (2 + length (o_main_files (rv_opts R))) * (1 + length (o_extensions (rv_opts R))))).
Proof. exact fin_70_any. Qed.
Print Assumptions C70_packages_partial.
(** The same for a run, and for any number of main fields. *)
Theorem C70_packages_run_partial : forall fs, sane_fs fs -> forall R f base req D X st, o_browser (rv_opts R) = false -> no_remap R base (r_target (parse req)) ->
  is_abs base = true -> length (o_main_fields (rv_opts R)) <= 1 ->
  Forall (shallow D) (events fs (call_prog (CResolve R f base req)) st) -> Forall (narrow D X) (events fs (call_prog (CResolve R f base req)) st) ->
  work fs (call_prog (CResolve R f base req)) st <= (length (components base) + D + 3) * (27 + 3 * D + X + length (o_extensions (rv_opts R)) +
    f * (47 + 6 * D + X + (2 + length (o_main_files (rv_opts R))) * (1 + length (o_extensions (rv_opts R))))).
Proof. exact fin_70_any_run. Qed.
Print Assumptions C70_packages_run_partial.
Theorem C70_requests_partial : forall fs, sane_fs fs -> forall R f base req D X tr o, o_browser (rv_opts R) = false -> no_remap R base (r_target (parse req)) ->
  is_abs base = true ->
  exec (call_prog (CResolve R f base req)) tr o -> Forall (from_disk fs) tr -> Forall (shallow D) tr -> Forall (narrow D X) tr ->
  length tr <= (length (components base) + D + 3) * (27 + 3 * D + X + length (o_extensions (rv_opts R)) + f * (24 + 3 * D + X) +
    branches (length (o_main_fields (rv_opts R))) f *
      (23 + 3 * D + (1 + length (o_main_fields (rv_opts R)) + length (o_main_files (rv_opts R))) * (1 + length (o_extensions (rv_opts R))))).
Proof. exact fin_70_all. Qed.
Print Assumptions C70_requests_partial.
(** [events]: the operations of a run, which this theorem can be used with. *)
Theorem C70_events : forall fs (p : prog answer) st, exec p (events fs p st) (out fs st p) /\ Forall (from_disk fs) (events fs p st) /\ length (events fs p st) = work fs p st.
Proof. exact events_run. Qed.
Print Assumptions C70_events.
Example C70_packages_ex : (o_browser (rv_opts R70e) = false /\ no_remap R70e (lit "/r") (r_target (parse (lit "p"))) /\ no_remap R70e (lit "/r") (r_target (parse (lit "#x"))) /\ length (o_main_fields (rv_opts R70e)) = 1) /\
  (forall req, In req [lit "p"; lit "#x"] -> Forall (shallow 4) (events (W t70e) (call70e req) st0) /\ Forall (narrow 4 2) (events (W t70e) (call70e req) st0) /\
    out (W t70e) st0 (call70e req) = Done (AResolve (Ok (RInfo (mkInfo (lit "/r/node_modules/p/m.js") (mkReq [] [] [] Relative)))))) /\
  work (W t70e) (call70e (lit "p")) st0 = 23 /\ work (W t70e) (call70e (lit "#x")) st0 = 27.
Proof. exact ex70e. Qed.
